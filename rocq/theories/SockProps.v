(** C65: nobody outside the owner and the group can ever connect to a socket of a
    backend, whatever umask the process was started with. *)
From Coq Require Import List NArith Bool Lia.
From Verif Require Import SockModel SockSpec.
Import ListNotations.
Local Open Scope N_scope.

Definition private (m : N) : Prop := nothing_for_others m /\ nothing_executable m.

(** Every socket this process made is private. *)
Definition all_private (o : os) : Prop :=
  forall p e, ents o p = Some e -> ours e = true -> issock e = true /\ private (mode e).

Lemma guard_private : private (bind_mode GUARD_MASK).
Proof. vm_compute. repeat split. Qed.

Lemma socket_private : private SOCKET_MODE.
Proof. vm_compute. repeat split. Qed.

Lemma private_upd : forall o u p e, all_private o ->
  (forall e', e = Some e' -> ours e' = true -> issock e' = true /\ private (mode e')) ->
  all_private {| um := u; ents := upd_ent (ents o) p e |}.
Proof.
  intros o u p e A H q e' E Ho. cbn in E. unfold upd_ent in E.
  destruct (q =? p); eauto.
Qed.

Lemma private_um : forall o u, all_private o -> all_private {| um := u; ents := ents o |}.
Proof. intros o u A p e E. cbn in E. exact (A p e E). Qed.

(** The shapes the remaining code of the main thread can have: outside a guard, or
    inside one with the mask in force. *)
Inductive outside : list instr -> Prop :=
| out_nil : outside []
| out_unlink : forall p c, outside c -> outside (IUnlink p :: c)
| out_chmod : forall p c, outside c -> outside (IChmod p :: c)
| out_guard : forall c, inside c -> outside (IGuard :: c)
with inside : list instr -> Prop :=
| in_unlink : forall p c, inside c -> inside (IUnlinkQuiet p :: c)
| in_bind : forall p c, inside c -> inside (IBind p :: c)
| in_restore : forall c, outside c -> inside (IRestore :: c).

Definition good (u0 : N) (o : os) (t : thread) : Prop :=
  all_private o /\
  ((outside (code t) /\ um o = u0) \/
   (inside (code t) /\ um o = GUARD_MASK /\ saved t = u0)).

Lemma step_good : forall u0 o t b o' t', good u0 o t -> step o t b = (o', t') -> good u0 o' t'.
Proof.
  intros u0 o t b o' t' [A H] E. unfold step in E.
  destruct (code t) as [|i c] eqn:Ec.
  { injection E as <- <-. split; auto. rewrite Ec. auto. }
  destruct H as [[O U]|[I [U V]]].
  - destruct i; inversion O; subst; clear O.
    + destruct (ents o p) eqn:Ep; [destruct b|]; injection E as <- <-; (split; [|left; cbn; auto using outside]); auto.
      apply private_upd; auto. discriminate.
    + injection E as <- <-. split; [now apply private_um|]. right. cbn. auto.
    + destruct (ents o p) eqn:Ep; [destruct b|]; injection E as <- <-; (split; [|left; cbn; auto using outside]); auto.
      apply private_upd; auto. intros e' Ee Ho. injection Ee as <-. cbn in *.
      split; [exact (proj1 (A _ _ Ep Ho))|apply socket_private].
  - destruct i; inversion I; subst; clear I.
    + destruct b; injection E as <- <-; (split; [|right; cbn; auto]); auto.
      apply private_upd; auto. discriminate.
    + destruct (b || _) eqn:Eb; injection E as <- <-.
      * split; auto. right. cbn. auto using inside, outside.
      * split; [|right; cbn; auto]. apply private_upd; auto.
        intros e' Ee Ho. injection Ee as <-. cbn. rewrite U. split; auto. apply guard_private.
    + injection E as <- <-. split; [now apply private_um|]. left. cbn. auto.
Qed.

Lemma run_good : forall bs u0 o t, good u0 o t ->
  good u0 (fst (run o t bs)) (snd (run o t bs)).
Proof.
  induction bs as [|b bs IH]; intros; cbn [run]; [exact H|].
  destruct (step o t b) as [o1 t1] eqn:E. eapply IH, step_good; eauto.
Qed.

Lemma vhosts_outside : forall v n, outside (concat (repeat (start_vhost v) n)).
Proof.
  induction n; cbn; [constructor|]. repeat constructor. exact IHn.
Qed.

Lemma main_outside : forall rpc v n, outside (main_code rpc v n).
Proof.
  intros [p|] v n; unfold main_code; cbn; [repeat constructor|]; apply vhosts_outside.
Qed.

(** Before the process starts nothing in the file system was made by it. *)
Definition before (o : os) : Prop := forall p e, ents o p = Some e -> ours e = false.

Lemma before_good : forall o c, before o -> outside c -> good (um o) o (fresh c).
Proof.
  intros o c B O. split; [|left; cbn; auto].
  intros p e E Ho. rewrite (B _ _ E) in Ho. discriminate.
Qed.

(** At every moment of every run, whatever the umask at the start, whichever calls
    fail and wherever the process dies: a directory entry the process created is
    closed to others, and not executable. *)
Theorem C65_never_open_to_others : forall o rpc vhost clients bads p e,
  before o ->
  ents (fst (run o (fresh (main_code rpc vhost clients)) bads)) p = Some e ->
  ours e = true ->
  nothing_for_others (mode e) /\ nothing_executable (mode e).
Proof.
  intros o rpc v n bads p e B E Ho.
  pose proof (run_good bads _ _ _ (before_good o _ B (main_outside rpc v n))) as [A _].
  exact (proj2 (A _ _ E Ho)).
Qed.

(** When the main thread has made its last call — with success or with an error —
    the umask is what it was. *)
Theorem C65_umask_restored : forall o rpc vhost clients bads o' t',
  before o ->
  run o (fresh (main_code rpc vhost clients)) bads = (o', t') ->
  code t' = [] -> um o' = um o.
Proof.
  intros o rpc v n bads o' t' B E Hc.
  pose proof (run_good bads _ _ _ (before_good o _ B (main_outside rpc v n))) as [_ G].
  rewrite E in G. cbn in G. rewrite Hc in G. destruct G as [[_ U]|[I _]]; auto. inversion I.
Qed.

Lemma run_nil : forall bs o t, code t = [] -> run o t bs = (o, t).
Proof.
  induction bs as [|b bs IH]; intros o t E; cbn; auto.
  unfold step. rewrite E. now apply IH.
Qed.

Lemma bit_660 : rw_rw_none SOCKET_MODE.
Proof.
  intros b. split.
  - intros H. destruct (N.le_gt_cases b 8) as [L|L].
    + assert (b = 0 \/ b = 1 \/ b = 2 \/ b = 3 \/ b = 4 \/ b = 5 \/ b = 6 \/ b = 7 \/ b = 8) as D by lia.
      destruct D as [->|[->|[->|[->|[->|[->|[->|[->| ->]]]]]]]]; vm_compute in H; try discriminate; tauto.
    + rewrite N.bits_above_log2 in H; [discriminate|]. unfold SOCKET_MODE. change (N.log2 432) with 8. lia.
  - intros [->|[->|[->| ->]]]; reflexivity.
Qed.

(** A prefix of the calls that only handles the entry [p]. *)
Definition touches_only (p : N) (i : instr) : Prop :=
  match i with
  | IUnlink q | IUnlinkQuiet q | IBind q | IChmod q => q = p
  | _ => True
  end.

Lemma step_touch : forall o t b o' t' P, step o t b = (o', t') ->
  (forall i, In i (code t) -> exists p, P p /\ touches_only p i) ->
  (forall i, In i (code t') -> exists p, P p /\ touches_only p i) /\
  (forall q, ~ P q -> ents o' q = ents o q).
Proof.
  intros o t b o' t' P E H. unfold step in E.
  destruct (code t) as [|i c] eqn:Ec.
  { injection E as <- <-. rewrite Ec. split; auto. }
  assert (Hc : forall j, In j c -> exists p, P p /\ touches_only p j) by (intros; apply H; cbn; auto).
  destruct (H i (or_introl eq_refl)) as [p [Hp T]].
  assert (U : forall e q, ~ P q -> upd_ent (ents o) p e q = ents o q).
  { intros e q Nq. unfold upd_ent. destruct (N.eqb_spec q p); auto. subst. contradiction. }
  assert (Hr : forall j, In j [IRestore] -> exists p, P p /\ touches_only p j).
  { intros j [<-|[]]. exists p. cbn. auto. }
  destruct i; cbn in T; subst;
    repeat match goal with
    | H : context[match ?x with _ => _ end] |- _ => destruct x eqn:?
    | H : context[if ?x then _ else _] |- _ => destruct x eqn:?
    end; injection E as <- <-; cbn; split; auto; intros ? [].
Qed.

Lemma run_touch : forall bs o t P,
  (forall i, In i (code t) -> exists p, P p /\ touches_only p i) ->
  forall q, ~ P q -> ents (fst (run o t bs)) q = ents o q.
Proof.
  induction bs as [|b bs IH]; intros o t P H q Nq; cbn [run]; auto.
  destruct (step o t b) as [o1 t1] eqn:E.
  destruct (step_touch _ _ _ _ _ P E H) as [H1 Q].
  rewrite (IH _ _ P H1 q Nq). auto.
Qed.

Lemma vhosts_touch : forall v n i, In i (concat (repeat (start_vhost v) n)) -> touches_only v i.
Proof.
  induction n as [|n IH]; intros i; [intros []|]. cbn [repeat concat].
  rewrite in_app_iff. intros [H|H]; auto.
  cbn in H. repeat (destruct H as [<-|H]; [cbn; auto|]). destruct H.
Qed.

(** No entry but the configured sockets is changed, ever. *)
Theorem C65_other_entries_untouched : forall o rpc vhost clients bads q,
  rpc <> Some q -> q <> vhost ->
  ents (fst (run o (fresh (main_code rpc vhost clients)) bads)) q = ents o q.
Proof.
  intros o rpc v n bads q Nr Nv.
  apply run_touch with (P := fun p => rpc = Some p \/ p = v); [|intros [H|H]; auto].
  intros i. cbn [code fresh]. unfold main_code. rewrite in_app_iff. intros [H|H].
  - destruct rpc as [p|]; [|destruct H]. exists p. split; auto. cbn in H.
    repeat (destruct H as [<-|H]; [cbn; auto|]). destruct H.
  - exists v. split; auto. now apply vhosts_touch with n.
Qed.

(** What a socket set up without an error looks like: rw for owner and group. *)
Definition ready (o : os) (p : N) : Prop :=
  exists e, ents o p = Some e /\ issock e = true /\ ours e = true /\ rw_rw_none (mode e).

Ltac cases E :=
  repeat match type of E with
  | context[match ?x with _ => _ end] => destruct x eqn:?; cbn in E
  end.

Lemma upd_same : forall f p e, upd_ent f p e p = e.
Proof. intros. unfold upd_ent. now rewrite N.eqb_refl. Qed.

Lemma failed_stays : forall bs o t, failed t = true -> failed (snd (run o t bs)) = true.
Proof.
  induction bs as [|b bs IH]; intros o t Ft; cbn [run]; auto.
  destruct (step o t b) as [o1 t1] eqn:E. apply IH. unfold step in E.
  destruct (code t) as [|i c]; [injection E as <- <-; auto|].
  destruct i; cases E; injection E as <- <-; cbn; auto.
Qed.

(** A step that does not fail consumes the first instruction, whatever follows. *)
Lemma step_ok : forall o i c s b o1 t1,
  step o {| code := i :: c; saved := s; failed := false |} b = (o1, t1) -> failed t1 = false ->
  exists s1, t1 = {| code := c; saved := s1; failed := false |} /\
    forall c', step o {| code := i :: c'; saved := s; failed := false |} b
               = (o1, {| code := c'; saved := s1; failed := false |}).
Proof.
  intros o i c s b o1 t1 E F. unfold step in *. cbn in *.
  destruct i; cases E; injection E as <- <-; cbn in F; try discriminate; eexists; split; auto.
Qed.

Lemma run_split : forall bs o c1 c2 s o' t',
  run o {| code := c1 ++ c2; saved := s; failed := false |} bs = (o', t') ->
  code t' = [] -> failed t' = false ->
  exists bs1 bs2 o1 s1,
    run o {| code := c1; saved := s; failed := false |} bs1
      = (o1, {| code := []; saved := s1; failed := false |}) /\
    run o1 {| code := c2; saved := s1; failed := false |} bs2 = (o', t').
Proof.
  induction bs as [|b bs IH]; intros o c1 c2 s o' t' E C F.
  - cbn in E. injection E as <- <-. cbn in C. apply app_eq_nil in C as [-> ->].
    exists [], [], o, s. auto.
  - destruct c1 as [|i c1].
    { exists [], (b :: bs), o, s. auto. }
    cbn [run app] in E.
    destruct (step o {| code := i :: c1 ++ c2; saved := s; failed := false |} b) as [o2 t2] eqn:Es.
    destruct (failed t2) eqn:F2.
    { pose proof (failed_stays bs o2 t2 F2) as M. rewrite E in M. cbn in M. congruence. }
    destruct (step_ok _ _ _ _ _ _ _ Es F2) as [s1 [-> G]].
    destruct (IH _ _ _ _ _ _ E C F) as (b1 & b2 & o1 & s2 & R1 & R2).
    exists (b :: b1), b2, o1, s2. split; auto. cbn [run]. rewrite G. exact R1.
Qed.

Lemma run_one : forall bs o i c s o' s',
  run o {| code := i :: c; saved := s; failed := false |} bs
    = (o', {| code := []; saved := s'; failed := false |}) ->
  exists b bs1 o1 s1,
    step o {| code := i :: c; saved := s; failed := false |} b
      = (o1, {| code := c; saved := s1; failed := false |}) /\
    run o1 {| code := c; saved := s1; failed := false |} bs1
    = (o', {| code := []; saved := s'; failed := false |}).
Proof.
  intros [|b bs] o i c s o' s' E; [discriminate|]. cbn [run] in E.
  destruct (step o _ b) as [o1 t1] eqn:Es. destruct (failed t1) eqn:F.
  { pose proof (failed_stays bs o1 t1 F) as M. rewrite E in M. discriminate. }
  destruct (step_ok _ _ _ _ _ _ _ Es F) as [s1 [-> _]]. eauto 6.
Qed.

(** The last two calls that matter: a successful bind, then a successful chmod. *)
Lemma bind_chmod_ready : forall bs o p s o' s',
  run o {| code := [IBind p; IRestore; IChmod p]; saved := s; failed := false |} bs
    = (o', {| code := []; saved := s'; failed := false |}) -> ready o' p.
Proof.
  intros bs o p s o' s' E.
  apply run_one in E as (b & bs1 & o1 & s1 & S1 & E).
  apply run_one in E as (b2 & bs2 & o2 & s2 & S2 & E).
  apply run_one in E as (b3 & bs3 & o3 & s3 & S3 & E).
  rewrite run_nil in E by reflexivity. injection E as <- <-.
  unfold step in S1; cbn in S1. destruct (b || _); [discriminate|]. injection S1 as <- _.
  unfold step in S2; cbn in S2. injection S2 as <- _.
  unfold step in S3; cbn in S3. rewrite upd_same in S3. destruct b3; [discriminate|].
  injection S3 as <- _. eexists. split; [cbn; apply upd_same|]. cbn. split; auto. split; auto.
  apply bit_660.
Qed.

Lemma rpc_ready : forall bs o p s o' s',
  run o {| code := start_rpc p; saved := s; failed := false |} bs
    = (o', {| code := []; saved := s'; failed := false |}) -> ready o' p.
Proof.
  intros. unfold start_rpc in H.
  apply run_one in H as (? & ? & ? & ? & _ & H). apply run_one in H as (? & ? & ? & ? & _ & H).
  eapply bind_chmod_ready; eauto.
Qed.

Lemma vhost_ready : forall bs o p s o' s',
  run o {| code := start_vhost p; saved := s; failed := false |} bs
    = (o', {| code := []; saved := s'; failed := false |}) -> ready o' p.
Proof.
  intros. unfold start_vhost in H.
  apply run_one in H as (? & ? & ? & ? & _ & H). apply run_one in H as (? & ? & ? & ? & _ & H).
  eapply bind_chmod_ready; eauto.
Qed.

Lemma concat_repeat_S : forall (l : list instr) n, concat (repeat l (S n)) = concat (repeat l n) ++ l.
Proof.
  induction n as [|n IH]; cbn in *; [now rewrite app_nil_r|].
  rewrite IH at 1. now rewrite app_assoc.
Qed.

(** When every call succeeded, each client finds its socket open to the owner and
    the group for reading and writing and to nobody else; so does an RPC client. *)
Theorem C65_ready : forall o rpc vhost clients bads o' t',
  run o (fresh (main_code rpc vhost clients)) bads = (o', t') ->
  code t' = [] -> failed t' = false ->
  (clients <> 0%nat -> ready o' vhost) /\
  (forall p, rpc = Some p -> p <> vhost -> ready o' p).
Proof.
  intros o rpc v n bads o' [c s f] E C F. cbn in C, F. subst. unfold fresh, main_code in E.
  split.
  - intros Nn. destruct n as [|n]; [contradiction|]. rewrite concat_repeat_S, app_assoc in E.
    apply run_split in E as (b1 & b2 & o1 & s1 & _ & E); auto. eapply vhost_ready; eauto.
  - intros p -> Np.
    apply run_split in E as (b1 & b2 & o1 & s1 & E1 & E2); auto.
    apply rpc_ready in E1 as [e [Ee He]]. exists e. split; auto. rewrite <- Ee.
    change o' with (fst (o', {| code := []; saved := s; failed := false |})). rewrite <- E2.
    apply run_touch with (P := fun q => q = v); auto.
    intros i Hi. exists v. split; auto. eapply vhosts_touch; eauto.
Qed.

Definition empty_dir (u : N) : os := {| um := u; ents := fun _ => None |}.

(** A start under the umask 0: both sockets are 0660, a stale RPC socket with mode
    0777 left by somebody else is replaced. *)
Example C65_nonvacuous :
  let stale := {| issock := true; mode := 511; ours := false |} in
  let o := {| um := 0; ents := upd_ent (fun _ => None) 1 (Some stale) |} in
  before o /\
  exists o' t', run o (fresh (main_code (Some 1) 2 2)) (repeat false 15) = (o', t') /\
    code t' = [] /\ failed t' = false /\ um o' = 0 /\
    ents o' 1 = Some {| issock := true; mode := 432; ours := true |} /\
    ents o' 2 = Some {| issock := true; mode := 432; ours := true |}.
Proof.
  split.
  - intros p e. cbn. unfold upd_ent. destruct (p =? 1); [|discriminate]. intros E. injection E as <-. reflexivity.
  - eexists _, _. split; [reflexivity|]. vm_compute. repeat split.
Qed.

(** The guard is not safe in two threads at once, as its comment warns: two starts
    in two threads of one process can leave a socket open to everybody (0777 for a
    while), and leave the process with the umask of the guard. *)
Theorem C65_refuted_two_threads :
  exists s1 s2 o1 a1 b1 o2 a2 b2 e,
    run2 (empty_dir 0) (fresh (start_vhost 1)) (fresh (start_vhost 2)) s1 = (o1, a1, b1) /\
    ents o1 2 = Some e /\ ours e = true /\ ~ nothing_for_others (mode e) /\
    run2 (empty_dir 0) (fresh (start_vhost 1)) (fresh (start_vhost 2)) s2 = (o2, a2, b2) /\
    code a2 = [] /\ code b2 = [] /\ failed a2 = false /\ failed b2 = false /\
    um o2 <> 0.
Proof.
  exists [true; false; false; true; true; true; false],
         [true; false; true; true; true; true; false; false; false; false].
  eexists _, _, _, _, _, _, _. split; [reflexivity|]. split; [reflexivity|]. split; [reflexivity|].
  split; [intros [H _]; vm_compute in H; discriminate|].
  split; [reflexivity|]. repeat (split; [reflexivity|]). vm_compute. discriminate.
Qed.

Print Assumptions C65_never_open_to_others.
Print Assumptions C65_umask_restored.
Print Assumptions C65_other_entries_untouched.
Print Assumptions C65_ready.
Print Assumptions C65_refuted_two_threads.
