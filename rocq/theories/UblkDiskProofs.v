From Coq Require Import List NArith ZArith Arith Bool Lia ZifyBool ZifyNat ZifyN.
From Verif Require Import Base BaseFacts DiskSpec TraceSpec TraceFacts AheadFacts TrackerModel UblkModel UblkSpec UblkProofs
  GuestModel GuestSpec GuestProofs UblkDiskModel UblkDiskSpec.
Import ListNotations.
Local Open Scope N_scope.

Notation uasks := UblkDiskSpec.asks.
Notation ufinds := UblkDiskSpec.finds.
Notation upending := UblkDiskSpec.pending.
Notation uwatch := UblkDiskSpec.watch.
Notation udriver := UblkDiskSpec.driver_ok.
Notation usession := UblkDiskSpec.session.
Notation uput := UblkDiskModel.put.
Notation umk := UblkDiskSpec.mk_pending.
Notation ureqof := UblkDiskModel.req_of.

(** ** The loop of a handler is made of these steps *)
Fixpoint enqueue_n (k : nat) (s : hstate) : res hstate :=
  match k with O => Ok s | S k => let! s1 := enqueue_one s in enqueue_n k s1 end.
Fixpoint poll_each (ps : list (nat * bool * list byte)) (s : hstate) : res hstate :=
  match ps with [] => Ok s | p :: r => let! s1 := poll_all [p] s in poll_each r s1 end.

Lemma bindr_ok : forall {A} (x : res A), (let! y := x in Ok y) = x.
Proof. intros A [| |]; reflexivity. Qed.

Lemma enqueue_pending : forall r s s1 ok, enqueue r s = Ok (s1, ok) -> h_pending s1 = h_pending s.
Proof.
  intros r s s1 ok H. unfold enqueue in H. destruct (index (h_backend s) (q_tag r)); cbn [bindr] in H; try discriminate H.
  destruct (index (h_bufs s) (q_tag r)); cbn [bindr] in H; try discriminate H.
  destruct (_ || _); [injection H as <- <-; reflexivity|]. destruct (q_op r); injection H as <- <-; reflexivity.
Qed.

Lemma enqueue_one_pending : forall s s1 r rest, enqueue_one s = Ok s1 -> h_pending s = r :: rest -> h_pending s1 = rest.
Proof.
  intros s s1 r rest H E. unfold enqueue_one in H. rewrite E in H.
  destruct (enqueue r _) as [[s2 ok]| |] eqn:E2; cbn [bindr] in H; try discriminate H.
  apply enqueue_pending in E2. cbn [h_pending] in E2. destruct ok.
  - destruct (_ <? _)%nat; [|discriminate H]. injection H as <-. exact E2.
  - unfold complete in H. destruct (nth_error _ _); [|discriminate H]. injection H as <-. exact E2.
Qed.

Lemma enqueue_all_is_steps : forall rs q s, h_pending s = rs ->
  match enqueue_all rs q s with
  | Ok (s1, _) => enqueue_n (length rs) s = Ok s1
  | Err e => enqueue_n (length rs) s = Err e
  | Panic => enqueue_n (length rs) s = Panic
  end.
Proof.
  induction rs as [|r rest IH]; intros q s E; [reflexivity|].
  cbn [enqueue_all length enqueue_n].
  assert (P1 := fun s1 H => enqueue_one_pending s s1 r rest H E).
  unfold enqueue_one in *. rewrite E in *.
  destruct (enqueue r _) as [[s2 ok]| |] eqn:E2; cbn [bindr]; auto. cbn [bindr] in P1.
  destruct ok.
  - revert P1. destruct (_ <? _)%nat; cbn [bindr]; auto. intros P1. apply IH, P1. reflexivity.
  - revert P1. destruct (complete (q_tag r) UInval s2) as [s3| |] eqn:E3; cbn [bindr]; auto. intros P1. apply IH, P1. reflexivity.
Qed.

Lemma poll_all_cons : forall p ps s, poll_all (p :: ps) s = let! s1 := poll_all [p] s in poll_all ps s1.
Proof.
  intros [[id ok] data] ps s. cbn [poll_all]. destruct (nth_error _ id) as [[r|]|]; auto.
  destruct (complete_request r ok _); reflexivity.
Qed.

Lemma poll_all_is_steps : forall ps s, poll_all ps s = poll_each ps s.
Proof.
  induction ps as [|p ps IH]; intros s; [reflexivity|]. rewrite poll_all_cons. cbn [poll_each].
  destruct (poll_all [p] s); cbn [bindr]; auto.
Qed.

Lemma iteration_is_steps : forall busy ps s,
  iteration busy true ps s =
  if match h_pending s with [] => true | _ => false end && negb busy then Ok (stop_draining s)
  else let! s1 := enqueue_n (length (h_pending s)) s in poll_each ps s1.
Proof.
  intros. unfold iteration. destruct (_ && negb busy); [reflexivity|].
  pose proof (enqueue_all_is_steps (h_pending s) false s eq_refl) as X.
  destruct (enqueue_all (h_pending s) false s) as [[s1 q]| |]; rewrite X; cbn [bindr]; auto.
  cbn [negb]. rewrite andb_false_r. apply poll_all_is_steps.
Qed.

(** ** Small facts about the specification *)
Definition key (p : upending) : nat * nat := (UblkDiskSpec.p_queue p, p_tag p).
Definition ureq_of (p : upending) : ureq :=
  mk_ureq (op_from_raw (p_op p)) (p_start p) (p_nr p) (p_tag p) (p_nr p * 512).

Lemma asks_unique : forall p d r1 r2, uasks p d r1 -> uasks p d r2 -> r1 = r2.
Proof.
  intros * A B. destruct A, B; try congruence; try lia. f_equal. eapply is_sectors_unique; eauto.
Qed.
Lemma asks_io : forall p d r, uasks p d r -> p_op p <= 2.
Proof. intros * []; lia. Qed.
Lemma finds_unique : forall p rs b o1 d1 o2 d2, ufinds p rs b o1 d1 -> ufinds p rs b o2 d2 -> o1 = o2 /\ d1 = d2.
Proof.
  intros * A B. destruct A; inversion B; subst; auto; try lia. split; auto. f_equal. eapply is_sectors_unique; eauto.
Qed.
Lemma sent_unique : forall p d t1 t2, sent p d t1 -> sent p d t2 -> t1 = t2.
Proof.
  intros * [r1 A|A] [r2 B|B]; auto.
  - rewrite (asks_unique _ _ _ _ A B). reflexivity.
  - apply asks_io in A. lia.
  - apply asks_io in B. lia.
Qed.
Lemma got_unique : forall p rs b t1 t2, got p rs b t1 -> got p rs b t2 -> t1 = t2.
Proof.
  intros * [o1 d1 H1 A|H1 A] [o2 d2 H2 B|H2 B]; auto; try lia. destruct (finds_unique _ _ _ _ _ _ _ A B) as [-> ->]. reflexivity.
Qed.

Lemma key_split : forall (P1 P2 Q1 Q2 : list upending) p r, P1 ++ p :: P2 = Q1 ++ r :: Q2 -> key p = key r ->
  NoDup (map key (P1 ++ p :: P2)) -> P1 = Q1 /\ p = r /\ P2 = Q2.
Proof.
  induction P1 as [|x P1 IH]; intros P2 [|y Q1] Q2 p r E K N; cbn [app map] in *.
  - injection E as -> ->. auto.
  - injection E as -> ->. inversion N as [|? ? Hn N']; subst. exfalso. apply Hn. rewrite K, map_app. apply in_or_app. right. left. reflexivity.
  - injection E as -> <-. inversion N as [|? ? Hn N']; subst. exfalso. apply Hn. rewrite <- K, map_app. apply in_or_app. right. left. reflexivity.
  - injection E as -> E. inversion N as [|? ? Hn N']; subst. destruct (IH _ _ _ _ _ E K N') as (-> & -> & ->). auto.
Qed.

Lemma snoc_neq : forall {A} (l : list A) x, l ++ [x] <> l.
Proof. intros A l x E. apply (f_equal (@length A)) in E. rewrite app_length in E. cbn in E. lia. Qed.

(** The driver's notes are determined by what it sees. *)
Lemma watch_unique : forall u e u' P P1 w1 P2 w2, NoDup (map key P) ->
  uwatch u e u' P P1 w1 -> uwatch u e u' P P2 w2 -> P1 = P2 /\ w1 = w2.
Proof.
  intros * N A B. inversion A; subst; inversion B; subst;
    repeat match goal with
    | H : UHandle _ _ _ _ _ _ _ _ = UHandle _ _ _ _ _ _ _ _ |- _ => injection H as ? ? ? ? ? ? ? ?; subst
    | H : loop_of ?e = Some ?a, H' : loop_of ?e = Some ?b |- _ =>
        assert (a = b) by congruence; clear H'; subst
    end; try discriminate; auto;
    try (exfalso; match goal with H : returned ?u ?q = ?x, H' : returned ?u ?q = _ |- _ =>
           rewrite H in H'; first [exact (snoc_neq _ _ H')|exact (snoc_neq _ _ (eq_sym H'))] end).
  - split; auto. eapply sent_unique; eauto.
  - split; auto. match goal with H : returned ?u ?q = ?x, H' : returned ?u ?q = _ |- _ => rewrite H in H'; apply app_inv_head in H'; injection H' as -> -> end.
    f_equal; [eapply sent_unique; eauto|eapply got_unique; eauto].
  - match goal with H : p_queue ?p = p_queue ?p0 |- _ => rename H into Eq end.
    match goal with H : returned ?u (p_queue p) = ?x, H' : returned ?u (p_queue ?p0) = _ |- _ =>
      rewrite <- Eq, H in H'; apply app_inv_head in H'; injection H' as Et -> -> end.
    match goal with H : _ ++ _ :: _ = _ ++ _ :: _ |- _ => rename H into E end.
    symmetry in E. destruct (key_split _ _ _ _ _ _ E) as (-> & -> & ->); auto.
    { unfold key. congruence. }
    split; auto. eapply got_unique; eauto.
Qed.

(** ** The invariant *)
Section Backend.
Variables (max : N) (depth size : nat).
Hypothesis max_small : max < 2 ^ 31.

Notation udisk := (disk sector).
Notation whole := (fun s : sector => N.of_nat (length s) = 512).

(** A request the driver waits for is pending in its handler, or in the device. *)
Definition waits (u : ust) (E : @soon sector) (p : upending) (buf : list byte) : Prop :=
  In (ureq_of p) (h_pending (u_queue u (p_queue p))) /\
  (p_op p <= 2 -> u_serial u (p_queue p) (p_tag p) = p_serial p /\
     exists r, uasks p buf r /\ E (p_serial p) = Some (p_queue p, p_tag p, r)).
Definition runs (u : ust) (d : udisk) (p : upending) (buf : list byte) : Prop :=
  nth_error (h_inflight (u_queue u (p_queue p))) (p_tag p) = Some (Some (ureq_of p)) /\ p_op p <= 2 /\
  exists r k, uasks p buf r /\ d_ops d (p_serial p) = Some (mk_dop (p_queue p) (p_tag p) k) /\ kind_of r k.
Definition linked (u : ust) (d : udisk) (E : @soon sector) (p : upending) : Prop :=
  (p_tag p < depth)%nat /\ 512 * p_nr p <= max /\ (p_op p <= 1 -> p_start p + p_nr p <= N.of_nat size) /\
  exists buf, nth_error (h_bufs (u_queue u (p_queue p))) (p_tag p) = Some buf /\ (waits u E p buf \/ runs u d p buf).

Record Inv (u : ust) (P : list upending) (d d' : udisk) (E : @soon sector) : Prop := {
  v_wf : forall q, wf max depth (u_queue u q);
  v_one : forall q, one_each (u_queue u q);
  v_keys : NoDup (map key P);
  v_link : forall p, In p P -> linked u d E p;
  v_pend : forall q r, In r (h_pending (u_queue u q)) -> exists p, In p P /\ p_queue p = q /\ ureq_of p = r;
  v_infl : forall q t r, nth_error (h_inflight (u_queue u q)) t = Some (Some r) ->
             exists p, In p P /\ p_queue p = q /\ ureq_of p = r;
  v_ops : forall n q id k, d_ops d n = Some (mk_dop q id k) ->
             exists p, In p P /\ key p = (q, id) /\ p_serial p = n /\ 
               nth_error (h_inflight (u_queue u q)) id = Some (Some (ureq_of p));
  v_soon : forall n q id r, E n = Some (q, id, r) -> exists p, In p P /\ key p = (q, id) /\ p_serial p = n /\ p_op p <= 2 /\
               In (ureq_of p) (h_pending (u_queue u q));
  v_sized : sized size whole d;
  v_ahead : ahead E d d' }.

Lemma key_inj : forall P p1 p2, NoDup (map key P) -> In p1 P -> In p2 P -> key p1 = key p2 -> p1 = p2.
Proof.
  induction P as [|p P IH]; intros p1 p2 N H1 H2 E; [destruct H1|].
  cbn [map] in N. inversion N as [|? ? Hn N']; subst.
  destruct H1 as [<-|H1], H2 as [<-|H2]; auto.
  - exfalso. apply Hn. rewrite E. apply in_map, H2.
  - exfalso. apply Hn. rewrite <- E. apply in_map, H1.
Qed.

Lemma linked_mono : forall u u' d d1 E E' p, linked u d E p ->
  nth_error (h_bufs (u_queue u' (p_queue p))) (p_tag p) = nth_error (h_bufs (u_queue u (p_queue p))) (p_tag p) ->
  (In (ureq_of p) (h_pending (u_queue u (p_queue p))) -> In (ureq_of p) (h_pending (u_queue u' (p_queue p)))) ->
  nth_error (h_inflight (u_queue u' (p_queue p))) (p_tag p) = nth_error (h_inflight (u_queue u (p_queue p))) (p_tag p) ->
  u_serial u' (p_queue p) (p_tag p) = u_serial u (p_queue p) (p_tag p) ->
  (forall r, E (p_serial p) = Some (p_queue p, p_tag p, r) -> E' (p_serial p) = Some (p_queue p, p_tag p, r)) ->
  (forall k, d_ops d (p_serial p) = Some (mk_dop (p_queue p) (p_tag p) k) ->
     exists k', d_ops d1 (p_serial p) = Some (mk_dop (p_queue p) (p_tag p) k') /\ forall r, kind_of r k -> kind_of r k') ->
  linked u' d1 E' p.
Proof.
  intros * (L1 & L2 & L3 & buf & Lb & L) Hb Hp Hi Hs HE Hd. split; auto. split; auto. split; auto.
  exists buf. rewrite Hb. split; auto. destruct L as [[W1 W2]|(R1 & R2 & r & k & R3 & R4 & R5)].
  - left. split; auto. intros Ho. destruct (W2 Ho) as (S & r & A & B). rewrite Hs. split; auto. exists r. auto.
  - right. split; [now rewrite Hi|]. split; auto. destruct (Hd _ R4) as (k' & D1 & D2). exists r, k'. auto.
Qed.

(** The device works on its own. *)
Lemma inv_silents : forall es u P d d' E d1, Inv u P d d' E -> drun size d es = Some (d1, []) ->
  exists d1', drun size d' es = Some (d1', []) /\ Inv u P d1 d1' E.
Proof.
  intros * I R. destruct (ahead_silents _ _ es _ _ _ (v_ahead _ _ _ _ _ I) R) as (d1' & R' & A).
  exists d1'. split; auto. pose proof (silents_ops _ _ _ _ R) as O. destruct I. constructor; auto.
  - intros p Hp. eapply linked_mono; eauto. intros k Ek. specialize (O (p_serial p)). rewrite Ek in O. exact O.
  - intros n q id k Ek. specialize (O n). destruct (d_ops d n) as [[q0 id0 k0]|] eqn:Eo; [|congruence].
    destruct O as (k1 & O1 & _). rewrite O1 in Ek. injection Ek as <- <- <-. eauto.
  - eapply sized_run; eauto. intros n q id off data [].
Qed.

Lemma pending_zero : forall t l, (forall r, In r l -> q_tag r <> t) -> pending_n t l = 0%nat.
Proof.
  induction l as [|r l IH]; intros H; [reflexivity|]. rewrite pending_cons, IH by (intros; apply H; right; auto).
  destruct (Nat.eqb_spec (q_tag r) t); [|lia]. exfalso. apply (H r); auto. now left.
Qed.

(** ** What the handlers do *)
Lemma handle_effect : forall tag d fl st nr last s, wf max depth s -> (tag < depth)%nat -> N.of_nat (length d) = max ->
  owned_n tag s = 0%nat -> one_each s ->
  exists s', handle max false tag d fl st nr last s = Ok s' /\ wf max depth s' /\ one_each s' /\
    h_bufs s' = set_nth tag d (h_bufs s) /\ h_inflight s' = h_inflight s /\
    if max <? nr * 512
    then h_pending s' = h_pending s /\ h_done s' = h_done s ++ [(tag, UInval, d)]
    else h_pending s' = h_pending s ++ [mk_ureq (op_from_raw (N.land fl 255)) st nr tag (nr * 512)] /\ h_done s' = h_done s.
Proof.
  intros * W Ht Hd Ho U. destruct W as [W1 W2 W3 W4 W5 W6 W7]. unfold handle.
  cbn [h_pending h_inflight h_backend h_bufs h_tr h_draining h_chan h_ops h_done].
  destruct (N.ltb_spec max (nr * 512)) as [Hm|Hm].
  - unfold complete. cbn [h_pending h_inflight h_backend h_bufs h_tr h_draining h_chan h_ops h_done].
    rewrite nth_error_set_nth_eq by lia. eexists. split; [reflexivity|].
    split; [|split; [exact U|cbn; auto]].
    constructor; cbn [h_inflight h_backend h_bufs h_pending]; rewrite ?set_nth_length; auto. apply Forall_set_nth; auto.
  - eexists. split; [reflexivity|]. split; [|split; [|cbn; auto]].
    + constructor; cbn [h_inflight h_backend h_bufs h_pending]; rewrite ?set_nth_length; auto.
      * apply Forall_set_nth; auto.
      * apply Forall_app. split; auto.
    + intros t. unfold owned_n, inflight_n in *. cbn [h_pending h_inflight]. unfold pending_n in *. rewrite filter_app, app_length.
      cbn [filter q_tag]. specialize (U t). unfold owned_n, inflight_n, pending_n in U.
      destruct (Nat.eqb_spec tag t) as [<-|]; cbn [length]; lia.
Qed.

Lemma enqueue_effect : forall s r rest, wf max depth s -> one_each s -> h_pending s = r :: rest ->
  exists bk ub, nth_error (h_bufs s) (q_tag r) = Some ub /\ N.of_nat (length ub) = max /\
    enqueue_one s = Ok (enq1 r rest bk ub s) /\ wf max depth (enq1 r rest bk ub s) /\ one_each (enq1 r rest bk ub s) /\
    (q_tag r < depth)%nat /\ q_bytes r <= max /\ (forall r', In r' rest -> q_tag r' <> q_tag r) /\
    nth_error (h_inflight s) (q_tag r) = Some None.
Proof.
  intros * W U Ep. pose proof (wf_pend _ _ _ W) as Hp. rewrite Ep in Hp. inversion Hp as [|? ? [Ht Hb] Hr]; subst.
  destruct (enqueue_all_step max depth r rest false s W Ht Hb) as (bk & ub & E1 & E2 & L1 & L2 & _).
  exists bk, ub. split; auto. split; auto. split.
  { unfold enqueue_one. rewrite Ep. rewrite (enqueue_ok max r _ bk ub); auto. pose proof (wf_infl _ _ _ W). unfold enq1.
    destruct (q_op r); cbn [bindr]; cbn [h_pending h_inflight h_backend h_bufs h_tr h_draining h_chan h_ops h_done];
      try (replace (q_tag r <? length (h_inflight s))%nat with true by lia; reflexivity).
    unfold complete. cbn [h_pending h_inflight h_backend h_bufs h_tr h_draining h_chan h_ops h_done]. rewrite E2. reflexivity. }
  pose proof (U (q_tag r)) as U1. unfold owned_n in U1. rewrite Ep, pending_cons, Nat.eqb_refl in U1.
  split; [apply enq1_wf; auto|]. split.
  { intros t. pose proof (U t) as Ut. unfold owned_n in *. rewrite Ep, pending_cons in Ut.
    pose proof (proj2 (enq1_counts max depth r rest bk ub s t W Ht ltac:(lia))) as C.
    replace (h_pending (enq1 r rest bk ub s)) with rest by (unfold enq1; destruct (q_op r); reflexivity).
    lia. }
  split; auto. split; auto. split.
  - intros r' Hin Et. pose proof (in_pending_count _ _ Hin) as C. rewrite Et in C. lia.
  - unfold inflight_n in U1. destruct (index_of (h_inflight s) (q_tag r)) as [x Ex]; [rewrite (wf_infl _ _ _ W); auto|].
    rewrite Ex in *. destruct x; [lia|reflexivity].
Qed.

Lemma poll_effect : forall s id ok data, wf max depth s -> one_each s -> N.of_nat (length data) <= max ->
  poll_all [(id, ok, data)] s = Ok (poll1 id ok data s) /\ wf max depth (poll1 id ok data s) /\ one_each (poll1 id ok data s).
Proof.
  intros * W U Hd. destruct (poll_all_step max depth id ok data [] s W Hd) as [E W']. split; [exact E|]. split; auto.
  intros t. specialize (U t). unfold owned_n in *. rewrite (proj1 (poll1_frame id ok data s)).
  pose proof (proj2 (poll1_counts max depth id ok data s t W)). lia.
Qed.

(** ** A request arrives *)
Lemma op_at_used : forall E (d d' : udisk) n, ahead E d d' -> (forall m o, d_ops d' m = Some o -> d_used d' m = true) ->
  d_used d' n = false -> E n = None /\ d_ops d n = None.
Proof.
  intros * A Hu Hn. pose proof (a_ops _ _ _ A n) as X. destruct (E n) as [[[q id] r]|].
  - destruct X as (_ & X & _). congruence.
  - split; auto. destruct (d_ops d n) as [[q id k]|]; auto. cbn in X. destruct X as (k' & X & _). apply Hu in X. congruence.
Qed.

Lemma asks_some : forall p d, N.of_nat (length d) = max -> p_op p <= 2 -> (p_op p = 1 -> 512 * p_nr p <= max) -> exists r, uasks p d r.
Proof.
  intros p d Hd Ho Hw. destruct (N.eq_dec (p_op p) 0); [eexists; now constructor|].
  destruct (N.eq_dec (p_op p) 2); [eexists; now constructor|]. assert (E1 : p_op p = 1) by lia. specialize (Hw E1).
  assert (S : is_sectors (firstn (N.to_nat (512 * p_nr p)) d) (split_sectors (N.to_nat (p_nr p)) (firstn (N.to_nat (512 * p_nr p)) d))).
  { apply split_sectors_ok. rewrite firstn_length. lia. }
  eexists. eapply UblkDiskSpec.asks_write; [exact E1| |exact S].
  destruct S as [S1 S2]. apply concat_length512 in S2. rewrite S1, firstn_length in S2. lia.
Qed.

Definition taken (u : ust) (q tag n : nat) (s' : hstate) : ust :=
  mk_ust (upd (u_queue u) q s') (upd (u_serial u) q (upd (u_serial u q) tag n)).

Lemma inv_take : forall u P d d' E q tag buf n s' E1 d1' P',
  Inv u P d d' E -> (forall p, In p P -> p_queue p = q -> p_tag p = tag -> False) -> (tag < depth)%nat ->
  wf max depth s' -> one_each s' -> h_bufs s' = set_nth tag buf (h_bufs (u_queue u q)) ->
  h_inflight s' = h_inflight (u_queue u q) -> ahead E1 d d1' -> (forall m, m <> n -> E1 m = E m) -> E n = None ->
  ((h_pending s' = h_pending (u_queue u q) /\ P' = P /\ E1 n = None) \/
   (exists p, key p = (q, tag) /\ p_serial p = n /\ h_pending s' = h_pending (u_queue u q) ++ [ureq_of p] /\ P' = p :: P /\
      512 * p_nr p <= max /\ (p_op p <= 1 -> p_start p + p_nr p <= N.of_nat size) /\
      ((p_op p <= 2 /\ exists r, uasks p buf r /\ E1 n = Some (q, tag, r)) \/ (2 < p_op p /\ E1 n = None)))) ->
  Inv (taken u q tag n s') P' d d1' E1.
Proof.
  intros * I Hnew Ht W U Hb Hi A HE En Hcase.
  assert (Keep : forall p, In p P -> linked (taken u q tag n s') d E1 p).
  { intros p Hp. pose proof (v_link _ _ _ _ _ I p Hp) as L. unfold taken.
    assert (Hk : p_queue p = q -> tag <> p_tag p) by (intros Hq He; symmetry in He; eauto).
    eapply linked_mono; [exact L|..]; cbn [u_queue u_serial]; unfold upd; destruct (Nat.eqb_spec (p_queue p) q) as [Eq|Nq]; auto.
    - rewrite Hb, Eq. apply nth_error_set_nth_neq. auto.
    - intros Hin. rewrite Eq in Hin. destruct Hcase as [(-> & _)|(p0 & _ & _ & -> & _)]; auto. apply in_or_app. auto.
    - now rewrite Hi, Eq.
    - rewrite Eq. destruct (Nat.eqb_spec (p_tag p) tag) as [e|]; auto. exfalso. eapply Hk; eauto.
    - intros r Er. rewrite HE; auto. intros Hx. rewrite Hx in Er. congruence.
    - intros r Er. rewrite HE; auto. intros Hx. rewrite Hx in Er. congruence.
    - eauto.
    - eauto. }
  assert (Inpend : forall q0 r, In r (h_pending (u_queue u q0)) -> In r (h_pending (u_queue (taken u q tag n s') q0))).
  { intros q0 r Hr. cbn [taken u_queue]. unfold upd. destruct (Nat.eqb_spec q0 q) as [->|]; auto.
    destruct Hcase as [(-> & _)|(p0 & _ & _ & -> & _)]; auto. apply in_or_app; auto. }
  assert (Infl : forall q0, h_inflight (u_queue (taken u q tag n s') q0) = h_inflight (u_queue u q0)).
  { intros q0. cbn [taken u_queue]. unfold upd. destruct (Nat.eqb_spec q0 q) as [->|]; auto. }
  assert (Sub : forall p, In p P -> In p P') by (destruct Hcase as [(_ & -> & _)|(p0 & _ & _ & _ & -> & _)]; [auto|now right]).
  constructor.
  - intros q0. cbn [taken u_queue]. unfold upd. destruct (q0 =? q)%nat; auto. apply I.
  - intros q0. cbn [taken u_queue]. unfold upd. destruct (q0 =? q)%nat; auto. apply I.
  - destruct Hcase as [(_ & -> & _)|(p0 & K0 & _ & _ & -> & _)]; [apply I|]. cbn [map]. constructor; [|apply I].
    rewrite K0. intros Hin. apply in_map_iff in Hin as (p & Ek & Hp). unfold key in Ek. injection Ek as E1' E2'. eauto.
  - intros p Hp. destruct Hcase as [(_ & -> & _)|(p0 & K0 & S0 & Ep & -> & B0 & Z0 & O0)]; auto. destruct Hp as [<-|Hp]; auto.
    unfold key in K0. injection K0 as Kq Kt. split; [lia|]. split; auto. split; auto. exists buf.
    cbn [taken u_queue]. rewrite Kq, Kt, upd_eq, Hb. split; [apply nth_error_set_nth_eq; rewrite (wf_bufs _ _ _ (v_wf _ _ _ _ _ I q)); auto|].
    left. split.
    + cbn [taken u_queue]. rewrite Kq, upd_eq, Ep. apply in_or_app. right. now left.
    + intros Ho. cbn [taken u_serial]. rewrite Kq, Kt, upd_eq, upd_eq. split; auto. destruct O0 as [(_ & r & R1 & R2)|[O1 _]]; [|lia].
      exists r. rewrite S0. auto.
  - intros q0 r Hr. cbn [taken u_queue] in Hr. unfold upd in Hr. destruct (Nat.eqb_spec q0 q) as [->|].
    + destruct Hcase as [(Ep & -> & _)|(p0 & K0 & S0 & Ep & -> & _)]; rewrite Ep in Hr; [apply I; auto|].
      apply in_app_or in Hr as [Hr|[<-|[]]].
      * destruct (v_pend _ _ _ _ _ I _ _ Hr) as (p & Hp & X). exists p. split; auto.
      * exists p0. unfold key in K0. injection K0 as Kq Kt. split; [now left|auto].
    + destruct (v_pend _ _ _ _ _ I _ _ Hr) as (p & Hp & X). exists p. auto.
  - intros q0 t r Hr. rewrite Infl in Hr. destruct (v_infl _ _ _ _ _ I _ _ _ Hr) as (p & Hp & X). exists p. auto.
  - intros m q0 id k Hk. destruct (v_ops _ _ _ _ _ I _ _ _ _ Hk) as (p & Hp & X). exists p. rewrite Infl. auto.
  - intros m q0 id r Hm. destruct (Nat.eq_dec m n) as [->|Hne].
    + destruct Hcase as [(_ & _ & X)|(p0 & K0 & S0 & Ep & -> & B0 & Z0 & O0)]; [congruence|].
      destruct O0 as [(O1 & r0 & R1 & R2)|[_ R2]]; [|congruence]. rewrite R2 in Hm. injection Hm as <- <- <-.
      exists p0. split; [now left|]. split; auto. split; auto. split; auto. cbn [taken u_queue]. rewrite upd_eq, Ep. apply in_or_app. right. now left.
    + rewrite HE in Hm by auto. destruct (v_soon _ _ _ _ _ I _ _ _ _ Hm) as (p & Hp & K & S0 & O & X). exists p. repeat split; auto.
  - apply I.
  - exact A.
Qed.

Lemma step_handle : forall u P d d' E notes q tag buf fl st nr last n,
  Inv u P d d' E -> udriver max depth size P notes (UHandle q tag buf fl st nr last n) ->
  d_used d' n = false -> (forall m o, d_ops d' m = Some o -> d_used d' m = true) ->
  exists u' P' w, ustep max depth u (UHandle q tag buf fl st nr last n) = Ok (u', []) /\
    uwatch u (UHandle q tag buf fl st nr last n) u' P P' w /\
    exists es1 d1' E1, drun size d' es1 = Some (d1', w) /\ Inv u' P' d d1' E1.
Proof.
  intros * I (Ht & Hd & Hnew & _ & _ & Hsz & Hw) Hn Hu.
  destruct (op_at_used _ _ _ _ (v_ahead _ _ _ _ _ I) Hu Hn) as [En Eo].
  set (p := umk q tag n (N.land fl 255) st nr).
  assert (Own : owned_n tag (u_queue u q) = 0%nat).
  { unfold owned_n. rewrite pending_zero.
    - unfold inflight_n. destruct (nth_error _ tag) as [[r|]|] eqn:Er; auto. exfalso.
      destruct (v_infl _ _ _ _ _ I _ _ _ Er) as (p0 & Hp0 & Eq0 & Er0).
      destruct (wf_req _ _ _ (v_wf _ _ _ _ _ I q) _ _ Er) as (Tr & _). subst r. eapply Hnew; eauto.
    - intros r Hr Et. destruct (v_pend _ _ _ _ _ I _ _ Hr) as (p0 & Hp0 & Eq0 & Er0). subst r. eapply Hnew; eauto. }
  destruct (handle_effect tag buf fl st nr last (u_queue u q) (v_wf _ _ _ _ _ I q) Ht Hd Own (v_one _ _ _ _ _ I q))
    as (s' & Hs & W & U & Hb & Hi & Hc).
  assert (Step : ustep max depth u (UHandle q tag buf fl st nr last n) = Ok (taken u q tag n s', [])).
  { cbn [ustep]. rewrite Hs. reflexivity. }
  assert (Ret : returned (taken u q tag n s') q = h_done s') by (unfold returned; cbn [taken u_queue]; now rewrite upd_eq).
  destruct (N.ltb_spec max (nr * 512)) as [Hm|Hm]; destruct Hc as [Hpend Hdone].
  - destruct (N.le_gt_cases (N.land fl 255) 2) as [Hio|Hio].
    + destruct (asks_some p buf Hd Hio Hw) as (r & Ar).
      exists (taken u q tag n s'), P, ([TIssue n q tag r] ++ [TDone n q tag false []]). split; auto. split.
      { eapply w_refused; [reflexivity|rewrite Ret; exact Hdone|exact (sent_io p buf r Ar)|].
        apply (got_io p UInval buf false []); [exact Hio|constructor]. }
      pose proof (ahead_early _ _ _ n q tag r (v_ahead _ _ _ _ _ I) Hn En Eo) as A1.
      destruct (ahead_refuse size _ _ _ n q tag r A1 (upd_eq _ _ _)) as [D A2].
      exists [DIssue n q tag r; DDone n false]. eexists. eexists. split.
      { cbn [drun]. replace (dstep size d' (DIssue n q tag r)) with (Some (dissue n q tag r d', [TIssue n q tag r]))
          by (cbn [dstep]; rewrite Hn; reflexivity).
        rewrite D. reflexivity. }
      eapply inv_take; eauto.
      * intros m Hne. now rewrite !upd_neq by auto.
      * left. rewrite upd_eq. auto.
    + exists (taken u q tag n s'), P, ([] ++ []). split; auto. split.
      { eapply w_refused; [reflexivity|rewrite Ret; exact Hdone|apply sent_other; exact Hio|apply got_other; [exact Hio|reflexivity]]. }
      exists [], d', E. split; [reflexivity|]. eapply inv_take; eauto. apply I.
  - assert (Ur : mk_ureq (op_from_raw (N.land fl 255)) st nr tag (nr * 512) = ureq_of p) by reflexivity. rewrite Ur in Hpend.
    destruct (N.le_gt_cases (N.land fl 255) 2) as [Hio|Hio].
    + destruct (asks_some p buf Hd Hio Hw) as (r & Ar).
      exists (taken u q tag n s'), (p :: P), [TIssue n q tag r]. split; auto. split.
      { eapply w_taken; [reflexivity|rewrite Ret; exact Hdone|exact (sent_io p buf r Ar)]. }
      pose proof (ahead_early _ _ _ n q tag r (v_ahead _ _ _ _ _ I) Hn En Eo) as A1.
      exists [DIssue n q tag r]. eexists. eexists. split.
      { cbn [drun]. replace (dstep size d' (DIssue n q tag r)) with (Some (dissue n q tag r d', [TIssue n q tag r]))
          by (cbn [dstep]; rewrite Hn; reflexivity). reflexivity. }
      eapply inv_take; eauto.
      * intros m Hne. now rewrite !upd_neq by auto.
      * right. exists p. do 4 (split; [reflexivity || auto|]). split; [change (p_nr p) with nr; lia|]. split; [exact Hsz|]. left. rewrite upd_eq. split; [exact Hio|eauto].
    + exists (taken u q tag n s'), (p :: P), []. split; auto. split.
      { eapply w_taken; [reflexivity|rewrite Ret; exact Hdone|apply sent_other; exact Hio]. }
      exists [], d', E. split; [reflexivity|]. eapply inv_take; eauto; [apply I|].
      right. exists p. do 4 (split; [reflexivity || auto|]). split; [change (p_nr p) with nr; lia|]. split; [exact Hsz|]. right. auto.
Qed.

(** ** A request goes to the device *)
Lemma op_raw_io : forall p, (q_op (ureq_of p) = OpUnsupported <-> 2 < p_op p).
Proof.
  intros p. cbn [ureq_of q_op]. unfold op_from_raw.
  destruct (N.eqb_spec (p_op p) 0), (N.eqb_spec (p_op p) 1), (N.eqb_spec (p_op p) 2); split; intros; try discriminate; try lia; auto.
Qed.

Lemma forwarded_asks : forall p ub, p_op p <= 2 -> 512 * p_nr p <= max -> N.of_nat (length ub) = max ->
  exists o, forwarded (ureq_of p) ub = [o] /\ op_tag o = p_tag p /\ uasks p ub (ureqof o).
Proof.
  intros p ub Ho Hm Hl. unfold forwarded. cbn [ureq_of q_op q_sector q_count q_tag q_bytes]. unfold op_from_raw.
  destruct (N.eqb_spec (p_op p) 0) as [E0|]; [eexists; split; [reflexivity|]; split; [reflexivity|]; now constructor|].
  destruct (N.eqb_spec (p_op p) 1) as [E1|].
  - eexists. split; [reflexivity|]. split; [reflexivity|]. cbn [ureqof].
    assert (S : is_sectors (firstn (N.to_nat (512 * p_nr p)) ub) (split_sectors (N.to_nat (p_nr p)) (firstn (N.to_nat (512 * p_nr p)) ub))).
    { apply split_sectors_ok. rewrite firstn_length. lia. }
    rewrite (N.mul_comm (p_nr p) 512). apply UblkDiskSpec.asks_write; auto.
    destruct S as [S1 S2]. apply concat_length512 in S2. rewrite S1, firstn_length in S2. lia.
  - destruct (N.eqb_spec (p_op p) 2) as [E2|]; [|lia]. eexists; split; [reflexivity|]; split; [reflexivity|]; now constructor.
Qed.

Lemma inv_issue : forall u P d d' E p r rest bk ub rq,
  Inv u P d d' E -> In p P -> r = ureq_of p -> h_pending (u_queue u (p_queue p)) = r :: rest -> p_op p <= 2 ->
  nth_error (h_bufs (u_queue u (p_queue p))) (p_tag p) = Some ub ->
  (forall r', In r' rest -> q_tag r' <> q_tag r) -> nth_error (h_inflight (u_queue u (p_queue p))) (p_tag p) = Some None ->
  wf max depth (enq1 r rest bk ub (u_queue u (p_queue p))) -> one_each (enq1 r rest bk ub (u_queue u (p_queue p))) ->
  uasks p ub rq -> E (p_serial p) = Some (p_queue p, p_tag p, rq) ->
  Inv (uput u (p_queue p) (enq1 r rest bk ub (u_queue u (p_queue p)))) P
    (dissue (p_serial p) (p_queue p) (p_tag p) rq d) d' (upd E (p_serial p) None).
Proof.
  intros * I Hp Er Epend Ho Eub Hrest Einf W U Hask EE.
  set (q := p_queue p) in *. set (s := u_queue u q) in *. set (s' := enq1 r rest bk ub s) in *.
  assert (Tr : q_tag r = p_tag p) by (subst r; reflexivity).
  assert (Frame : h_pending s' = rest /\ h_inflight s' = set_nth (p_tag p) (Some r) (h_inflight s) /\ h_bufs s' = h_bufs s).
  { unfold s', enq1. rewrite Tr. subst r. destruct (q_op (ureq_of p)) eqn:Eop; cbn; auto. apply op_raw_io in Eop. lia. }
  destruct Frame as (F1 & F2 & F3).
  assert (Li : (p_tag p < length (h_inflight s))%nat) by (apply nth_error_Some; congruence).
  assert (Other : forall p0, In p0 P -> p0 <> p -> p_queue p0 = q -> p_tag p0 <> p_tag p).
  { intros p0 H0 Hne Hq Ht. apply Hne. eapply key_inj; [apply I|auto|auto|]. unfold key. fold q. congruence. }
  assert (Inrest : forall p0, In p0 P -> p0 <> p -> p_queue p0 = q -> In (ureq_of p0) (h_pending s) -> In (ureq_of p0) rest).
  { intros p0 H0 Hne Hq Hin. rewrite Epend in Hin. destruct Hin as [Hin|Hin]; auto. exfalso.
    apply (Other p0 H0 Hne Hq). rewrite <- Tr, Hin. reflexivity. }
  assert (Dec : forall p0 : upending, p0 = p \/ p0 <> p).
  { intros p0. destruct (Nat.eq_dec (p_queue p0) (p_queue p)); [|right; congruence].
    destruct (Nat.eq_dec (p_tag p0) (p_tag p)); [|right; congruence].
    destruct (Nat.eq_dec (p_serial p0) (p_serial p)); [|right; congruence].
    destruct (N.eq_dec (p_op p0) (p_op p)); [|right; congruence].
    destruct (N.eq_dec (p_start p0) (p_start p)); [|right; congruence].
    destruct (N.eq_dec (p_nr p0) (p_nr p)); [|right; congruence].
    left. destruct p0, p. cbn in *. congruence. }
  pose proof (v_link _ _ _ _ _ I p Hp) as (L1 & L2 & L3 & _).
  constructor.
  - intros q0. cbn [uput u_queue]. unfold upd. destruct (q0 =? q)%nat; auto. apply I.
  - intros q0. cbn [uput u_queue]. unfold upd. destruct (q0 =? q)%nat; auto. apply I.
  - apply I.
  - intros p0 H0. destruct (Dec p0) as [->|Hne].
    + split; auto. split; auto. split; auto. exists ub. cbn [uput u_queue]. fold q. rewrite upd_eq, F3. split; auto.
      right. split; [|split; auto].
      * cbn [uput u_queue]. fold q. rewrite upd_eq, F2, nth_error_set_nth_eq by auto. now subst r.
      * exists rq, (start_kind d rq). split; auto. split; [|apply start_kind_of]. cbn [dissue d_ops]. now rewrite upd_eq.
    + eapply linked_mono; [apply (v_link _ _ _ _ _ I p0 H0)|..]; cbn [uput u_queue u_serial]; auto.
      * unfold upd. destruct (Nat.eqb_spec (p_queue p0) q) as [Eq|]; auto. now rewrite F3, Eq.
      * unfold upd. destruct (Nat.eqb_spec (p_queue p0) q) as [Eq|]; auto. rewrite F1, Eq. apply Inrest; auto.
      * unfold upd. destruct (Nat.eqb_spec (p_queue p0) q) as [Eq|]; auto. rewrite F2, Eq. apply nth_error_set_nth_neq.
        intros X. exact (Other p0 H0 Hne Eq (eq_sym X)).
      * intros r0 E0. unfold upd. destruct (Nat.eqb_spec (p_serial p0) (p_serial p)) as [Es|]; auto.
        rewrite Es, EE in E0. injection E0 as X1 X2 _. exfalso. exact (Other p0 H0 Hne (eq_sym X1) (eq_sym X2)).
      * intros k Ek. exists k. split; auto. cbn [dissue d_ops]. rewrite upd_neq; auto. intros Es.
        pose proof (a_ops _ _ _ (v_ahead _ _ _ _ _ I) (p_serial p)) as X. rewrite EE in X. rewrite Es in Ek. destruct X; congruence.
  - intros q0 r0 Hr. cbn [uput u_queue] in Hr. unfold upd in Hr. destruct (Nat.eqb_spec q0 q) as [->|]; [|exact (v_pend _ _ _ _ _ I _ _ Hr)].
    apply (v_pend _ _ _ _ _ I). fold s. rewrite Epend. right. now rewrite <- F1.
  - intros q0 t r0 Hr. cbn [uput u_queue] in Hr. unfold upd in Hr. destruct (Nat.eqb_spec q0 q) as [->|]; [|exact (v_infl _ _ _ _ _ I _ _ _ Hr)].
    rewrite F2, inflight_set in Hr by auto. destruct (Nat.eqb_spec (p_tag p) t).
    + injection Hr as <-. exists p. auto.
    + exact (v_infl _ _ _ _ _ I _ _ _ Hr).
  - intros m q0 id k Hk. cbn [dissue d_ops] in Hk. unfold upd in Hk. destruct (Nat.eqb_spec m (p_serial p)) as [->|Hne].
    + injection Hk as <- <- <-. exists p. split; auto. split; auto. split; auto.
      cbn [uput u_queue]. fold q. rewrite upd_eq, F2, nth_error_set_nth_eq by auto. now subst r.
    + destruct (v_ops _ _ _ _ _ I _ _ _ _ Hk) as (p0 & H0 & K0 & S0 & X0). exists p0. split; auto. split; auto. split; auto.
      cbn [uput u_queue]. unfold upd. destruct (Nat.eqb_spec q0 q) as [->|]; auto. rewrite F2, inflight_set by auto.
      destruct (Nat.eqb_spec (p_tag p) id) as [<-|]; auto. fold s in X0. rewrite Einf in X0. discriminate X0.
  - intros m q0 id r0 Hm. unfold upd in Hm. destruct (Nat.eqb_spec m (p_serial p)) as [->|Hne]; [discriminate|].
    destruct (v_soon _ _ _ _ _ I _ _ _ _ Hm) as (p0 & H0 & K0 & S0 & O0 & X0). exists p0. repeat (split; auto).
    cbn [uput u_queue]. unfold upd. destruct (Nat.eqb_spec q0 q) as [->|]; auto. rewrite F1.
    unfold key in K0. injection K0 as Kq Kt. apply Inrest; auto. intros ->. congruence.
  - destruct (v_sized _ _ _ _ _ I) as [S1 S2]. split; [exact S1|]. intros m q0 id k Hk. cbn [dissue d_ops] in Hk.
    unfold upd in Hk. destruct (Nat.eqb_spec m (p_serial p)) as [->|]; [|exact (S2 _ _ _ _ Hk)].
    injection Hk as <- <- <-. destruct Hask as [| v Hv1 Hv2 [Hv3 Hv4]|]; cbn; auto. discriminate.
  - apply ahead_issue; auto. apply I.
Qed.

(** ** A request is answered *)
Lemma inv_remove : forall u P1 p P2 d d' E s' d1 d1',
  Inv u (P1 ++ p :: P2) d d' E -> wf max depth s' -> one_each s' ->
  (forall t, t <> p_tag p -> nth_error (h_bufs s') t = nth_error (h_bufs (u_queue u (p_queue p))) t) ->
  (forall r, In r (h_pending (u_queue u (p_queue p))) -> q_tag r <> p_tag p -> In r (h_pending s')) ->
  (forall r, In r (h_pending s') -> In r (h_pending (u_queue u (p_queue p))) /\ q_tag r <> p_tag p) ->
  (forall t, t <> p_tag p -> nth_error (h_inflight s') t = nth_error (h_inflight (u_queue u (p_queue p))) t) ->
  (forall r, nth_error (h_inflight s') (p_tag p) <> Some (Some r)) ->
  (forall m o, d_ops d1 m = Some o -> d_ops d m = Some o /\ (d_ch o, d_id o) <> key p) ->
  (forall m o, d_ops d m = Some o -> (d_ch o, d_id o) <> key p -> d_ops d1 m = Some o) ->
  (forall m r, E m <> Some (p_queue p, p_tag p, r)) ->
  sized size whole d1 -> ahead E d1 d1' ->
  Inv (uput u (p_queue p) s') (P1 ++ P2) d1 d1' E.
Proof.
  intros * I W U Hb Hp1 Hp2 Hi1 Hi2 Ho1 Ho2 HE HS HA.
  set (q := p_queue p) in *.
  pose proof (v_keys _ _ _ _ _ I) as K. rewrite map_app in K. cbn [map] in K.
  assert (Other : forall p0, In p0 (P1 ++ P2) -> key p0 <> key p).
  { intros p0 H0 Hk. apply NoDup_remove_2 in K. apply K. rewrite <- map_app, <- Hk. apply in_map, H0. }
  assert (Sub : forall p0, In p0 (P1 ++ P2) -> In p0 (P1 ++ p :: P2)).
  { intros p0 H0. apply in_app_or in H0. apply in_or_app. destruct H0; [left|right; right]; auto. }
  assert (Back : forall p0, In p0 (P1 ++ p :: P2) -> key p0 <> key p -> In p0 (P1 ++ P2)).
  { intros p0 H0 Hk. apply in_app_or in H0. apply in_or_app. destruct H0 as [|[<-|]]; auto. contradiction. }
  constructor.
  - intros q0. cbn [uput u_queue]. unfold upd. destruct (q0 =? q)%nat; auto. apply I.
  - intros q0. cbn [uput u_queue]. unfold upd. destruct (q0 =? q)%nat; auto. apply I.
  - rewrite map_app. apply NoDup_remove_1 in K. exact K.
  - intros p0 H0. assert (Hk : p_queue p0 = q -> p_tag p0 <> p_tag p).
    { intros Eq Et. apply (Other p0 H0). unfold key. fold q. congruence. }
    eapply linked_mono; [apply (v_link _ _ _ _ _ I p0 (Sub _ H0))|..]; cbn [uput u_queue u_serial]; auto.
    + unfold upd. destruct (Nat.eqb_spec (p_queue p0) q) as [Eq|]; auto. rewrite Hb, Eq; auto.
    + unfold upd. destruct (Nat.eqb_spec (p_queue p0) q) as [Eq|]; auto. rewrite Eq. intros Hin. apply Hp1; auto.
    + unfold upd. destruct (Nat.eqb_spec (p_queue p0) q) as [Eq|]; auto. rewrite Hi1, Eq; auto.
    + intros k Ek. exists k. split; auto. apply Ho2; auto. cbn [d_ch d_id]. intros X. apply (Other p0 H0). exact X.
  - intros q0 r Hr. cbn [uput u_queue] in Hr. unfold upd in Hr. destruct (Nat.eqb_spec q0 q) as [->|].
    + destruct (Hp2 _ Hr) as [Hr1 Hr2]. destruct (v_pend _ _ _ _ _ I _ _ Hr1) as (p0 & H0 & Q0 & R0). exists p0. split; auto.
      apply Back; auto. intros X. apply Hr2. rewrite <- R0. unfold key in X. injection X as _ X. exact X.
    + destruct (v_pend _ _ _ _ _ I _ _ Hr) as (p0 & H0 & Q0 & R0). exists p0. split; auto. apply Back; auto.
      intros X. unfold key in X. injection X as X _. fold q in X. congruence.
  - intros q0 t r Hr. cbn [uput u_queue] in Hr. unfold upd in Hr. destruct (Nat.eqb_spec q0 q) as [->|].
    + assert (Ht : t <> p_tag p) by (intros ->; eapply Hi2; eauto). rewrite Hi1 in Hr by auto.
      destruct (v_infl _ _ _ _ _ I _ _ _ Hr) as (p0 & H0 & Q0 & R0). exists p0. split; auto. apply Back; auto.
      destruct (wf_req _ _ _ (v_wf _ _ _ _ _ I q) _ _ Hr) as (Tr & _).
      intros X. apply Ht. rewrite <- Tr, <- R0. unfold key in X. injection X as _ X. exact X.
    + destruct (v_infl _ _ _ _ _ I _ _ _ Hr) as (p0 & H0 & Q0 & R0). exists p0. split; auto. apply Back; auto.
      intros X. unfold key in X. injection X as X _. fold q in X. congruence.
  - intros m q0 id k Hk. destruct (Ho1 _ _ Hk) as [Hk1 Hk2]. cbn [d_ch d_id] in Hk2.
    destruct (v_ops _ _ _ _ _ I _ _ _ _ Hk1) as (p0 & H0 & K0 & S0 & X0). exists p0.
    split; [apply Back; auto; congruence|]. split; auto. split; auto. cbn [uput u_queue]. unfold upd.
    destruct (Nat.eqb_spec q0 q) as [->|]; auto. rewrite Hi1; auto. intros ->. apply Hk2. reflexivity.
  - intros m q0 id r Hm. destruct (v_soon _ _ _ _ _ I _ _ _ _ Hm) as (p0 & H0 & K0 & S0 & O0 & X0). exists p0.
    assert (Hk : key p0 <> key p).
    { intros X. rewrite X in K0. unfold key in K0. injection K0 as <- <-. exact (HE _ _ Hm). }
    split; [apply Back; auto|]. split; auto. split; auto. split; auto. cbn [uput u_queue]. unfold upd.
    destruct (Nat.eqb_spec q0 q) as [->|]; auto. apply Hp1; auto. cbn [ureq_of q_tag]. intros X. apply Hk.
    unfold key in *. fold q. congruence.
  - exact HS.
  - exact HA.
Qed.

(** Where the device is after what passed through the channels. *)
Definition moves (d : udisk) (t : list (titem sector)) (d1 : udisk) : Prop :=
  (t = [] /\ d1 = d) \/ (exists i ev, t = [i] /\ dstep size d ev = Some (d1, t)).

Definition result (u : ust) (e : uevent) (P : list upending) (d d' : udisk) : Prop :=
  exists u' t P' w, ustep max depth u e = Ok (u', t) /\ uwatch u e u' P P' w /\
    forall d1, moves d t d1 -> exists es1 d1' E1, drun size d' es1 = Some (d1', w) /\ Inv u' P' d1 d1' E1.

Lemma skipn_snoc : forall {A} (l : list A) x, skipn (length l) (l ++ x) = x.
Proof. intros. rewrite skipn_app, skipn_all, Nat.sub_diag. reflexivity. Qed.

Lemma inv_put_same : forall u P d d' E q s', Inv u P d d' E -> wf max depth s' -> one_each s' ->
  h_pending s' = h_pending (u_queue u q) -> h_inflight s' = h_inflight (u_queue u q) -> h_bufs s' = h_bufs (u_queue u q) ->
  Inv (uput u q s') P d d' E.
Proof.
  intros * I W U Hp Hi Hb.
  assert (X : forall q0, wf max depth (u_queue (uput u q s') q0) /\ one_each (u_queue (uput u q s') q0) /\
    h_pending (u_queue (uput u q s') q0) = h_pending (u_queue u q0) /\
    h_inflight (u_queue (uput u q s') q0) = h_inflight (u_queue u q0) /\ h_bufs (u_queue (uput u q s') q0) = h_bufs (u_queue u q0)).
  { intros q0. cbn [uput u_queue]. unfold upd. destruct (Nat.eqb_spec q0 q) as [->|]; auto. repeat (split; [apply I|]); auto. }
  constructor; try apply I.
  - apply X.
  - apply X.
  - intros p Hp0. destruct (X (p_queue p)) as (_ & _ & X3 & X4 & X5).
    eapply linked_mono; [apply (v_link _ _ _ _ _ I p Hp0)|..]; rewrite ?X3, ?X4, ?X5; eauto.
  - intros q0 r Hr. destruct (X q0) as (_ & _ & X3 & _). rewrite X3 in Hr. exact (v_pend _ _ _ _ _ I _ _ Hr).
  - intros q0 t r Hr. destruct (X q0) as (_ & _ & _ & X4 & _). rewrite X4 in Hr. exact (v_infl _ _ _ _ _ I _ _ _ Hr).
  - intros n q0 id k Hk. destruct (X q0) as (_ & _ & _ & X4 & _). rewrite X4. exact (v_ops _ _ _ _ _ I _ _ _ _ Hk).
  - intros n q0 id r Hk. destruct (X q0) as (_ & _ & X3 & _). rewrite X3. exact (v_soon _ _ _ _ _ I _ _ _ _ Hk).
Qed.

Lemma moves_nil : forall d d1, moves d [] d1 -> d1 = d.
Proof. intros d d1 [[_ ->]|(i & ev & X & _)]; [auto|discriminate]. Qed.
Lemma moves_one : forall d i d1, moves d [i] d1 -> exists ev, dstep size d ev = Some (d1, [i]).
Proof. intros d i d1 [[X _]|(j & ev & X & Y)]; [discriminate|eauto]. Qed.

Lemma step_enqueue : forall u P d d' E q, Inv u P d d' E -> result u (UEnqueue q) P d d'.
Proof.
  intros * I. unfold result. cbn [ustep]. set (s := u_queue u q).
  destruct (h_pending s) as [|r rest] eqn:Ep.
  { exists (uput u q s), [], P, []. split; [|split].
    - unfold enqueue_one. rewrite Ep. cbn [bindr]. unfold handed. now rewrite skipn_all.
    - eapply w_quiet; [reflexivity|]. unfold returned. cbn [uput u_queue]. now rewrite upd_eq.
    - intros d1 M. apply moves_nil in M as ->. exists [], d', E. split; [reflexivity|].
      apply inv_put_same; auto; apply I. }
  destruct (enqueue_effect s r rest (v_wf _ _ _ _ _ I q) (v_one _ _ _ _ _ I q) Ep)
    as (bk & ub & Eub & Lub & Eq1 & W & U & Ht & Hb & Hrest & Einf).
  destruct (v_pend _ _ _ _ _ I q r) as (p & Hp & Hq & Hr); [fold s; rewrite Ep; now left|].
  assert (Tr : q_tag r = p_tag p) by (subst r; reflexivity). rewrite Tr in *.
  destruct (v_link _ _ _ _ _ I p Hp) as (L1 & L2 & L3 & buf & L4 & L5). rewrite Hq in L4. fold s in L4.
  rewrite Eub in L4. injection L4 as <-.
  destruct L5 as [[Wa Wb]|(R & _)]; [|rewrite Hq in R; fold s in R; congruence].
  rewrite Eq1. cbn [bindr].
  destruct (N.le_gt_cases (p_op p) 2) as [Hio|Hio].
  - destruct (Wb Hio) as (Ser & rq & Hask & EE).
    destruct (forwarded_asks p ub Hio L2 Lub) as (o & Fo & To & Ao).
    assert (rq = ureqof o) by (eapply asks_unique; eauto). subst rq.
    assert (Frame : h_ops (enq1 r rest bk ub s) = h_ops s ++ [o] /\ h_done (enq1 r rest bk ub s) = h_done s).
    { unfold enq1. subst r. rewrite Fo. destruct (q_op (ureq_of p)) eqn:Eop; cbn; auto. apply op_raw_io in Eop. lia. }
    destruct Frame as [F1 F2].
    assert (Eh : handed u q s (enq1 r rest bk ub s) = [TIssue (p_serial p) q (p_tag p) (ureqof o)]).
    { unfold handed. rewrite F1, skipn_snoc. cbn [map]. rewrite To, <- Hq, Ser. reflexivity. }
    exists (uput u q (enq1 r rest bk ub s)), [TIssue (p_serial p) q (p_tag p) (ureqof o)], P, [].
    split; [now rewrite Eh|]. split.
    + eapply w_quiet; [reflexivity|]. unfold returned. cbn [uput u_queue]. now rewrite upd_eq.
    + intros d1 M. apply moves_one in M as (ev & M). apply item_issue in M as [_ ->].
      exists [], d', (upd E (p_serial p) None). split; [reflexivity|].
      subst q. eapply inv_issue; eauto. intros r' Hr'. rewrite Tr. auto.
  - assert (Eop : q_op r = OpUnsupported) by (subst r; now apply op_raw_io).
    assert (Frame : h_ops (enq1 r rest bk ub s) = h_ops s /\ h_done (enq1 r rest bk ub s) = h_done s ++ [(p_tag p, UInval, ub)] /\
      h_pending (enq1 r rest bk ub s) = rest /\ h_inflight (enq1 r rest bk ub s) = h_inflight s /\ h_bufs (enq1 r rest bk ub s) = h_bufs s).
    { unfold enq1. rewrite Eop. cbn. rewrite Tr. auto. }
    destruct Frame as (F1 & F2 & F3 & F4 & F5).
    destruct (in_split _ _ Hp) as (P1 & P2 & ->).
    exists (uput u q (enq1 r rest bk ub s)), [], (P1 ++ P2), [].
    split; [unfold handed; rewrite F1, skipn_all; reflexivity|]. split.
    + eapply w_answer; [reflexivity| |exact Hq|apply got_other; [exact Hio|reflexivity]].
      unfold returned. cbn [uput u_queue]. rewrite upd_eq. exact F2.
    + intros d1 M. apply moves_nil in M as ->. exists [], d', E. split; [reflexivity|].
      subst q. eapply inv_remove; eauto.
      * intros t _. now rewrite F5.
      * intros r' Hr' Hne. fold s in Hr'. rewrite Ep in Hr'. rewrite F3. destruct Hr' as [<-|]; auto. contradiction.
      * intros r' Hr'. rewrite F3 in Hr'. fold s. rewrite Ep. split; [now right|auto].
      * intros t _. now rewrite F4.
      * intros r'. rewrite F4, Einf. discriminate.
      * intros m [q0 id k] Hk. split; auto. cbn [d_ch d_id]. unfold key. intros X. injection X as -> ->.
        destruct (v_ops _ _ _ _ _ I _ _ _ _ Hk) as (p0 & H0 & K0 & S0 & X0). fold s in X0. congruence.
      * intros m rr Hm. destruct (v_soon _ _ _ _ _ I _ _ _ _ Hm) as (p0 & H0 & K0 & S0 & O0 & X0).
        assert (p0 = p) by (eapply key_inj; [apply I|auto|auto|exact K0]). subst p0. lia.
      * apply I.
      * apply I.
Qed.

(** What the device reports is what the driver finds. *)
Lemma reply_found : forall p r k d n ok d1 data bk ub,
  sized size whole d -> (p_op p <= 1 -> p_start p + p_nr p <= N.of_nat size) -> 512 * p_nr p <= max -> N.of_nat (length ub) = max ->
  p_op p <= 2 -> uasks p ub r -> d_ops d n = Some (mk_dop (p_queue p) (p_tag p) k) -> kind_of r k ->
  dstep size d (DDone n ok) = Some (d1, [TDone n (p_queue p) (p_tag p) ok data]) ->
  N.of_nat (length (bytes_of data)) <= max /\
  ufinds p (reply (ureq_of p) ok) (reply_buf (ureq_of p) ok (bytes_of data ++ bk) ub) ok data.
Proof.
  intros * [S1 S2] Hsz Hm Hl Hio Hask Eo Hk H. cbn [dstep] in H. rewrite Eo in H. cbn [d_kind d_ch d_id] in H.
  pose proof (S2 _ _ _ _ Eo) as S3.
  destruct ok.
  2:{ injection H as <- <-. split; [cbn; lia|]. cbn [reply]. constructor. }
  unfold reply, reply_buf. cbn [ureq_of q_op q_bytes].
  destruct k as [off len gt|off dat ap|snap].
  - destruct (in_range_all _ _ _ _) eqn:Er; [|discriminate H]. injection H as <- <-.
    destruct Hask as [Ho| |]; cbn [kind_of] in Hk; try contradiction. destruct Hk as [<- <-].
    destruct (read_data_some (fun _ => true) [] 0 size (N.to_nat (p_start p)) (N.to_nat (p_nr p)) gt) as (v & Ev & Fv & Lv); [lia|exact Er|exact S3|].
    rewrite Ev, bytes_of_some. pose proof (concat_length512 v Fv) as Lc.
    split; [lia|]. rewrite Ho. cbn [op_from_raw N.eqb].
    replace (as_i32 (p_nr p * 512)) with (Z.of_N (512 * p_nr p)) by (rewrite as_i32_small; lia).
    apply UblkDiskSpec.finds_data; auto. rewrite (N.mul_comm (p_nr p) 512).
    replace (firstn (N.to_nat (512 * p_nr p)) (concat v ++ bk)) with (concat v).
    + rewrite firstn_app, firstn_all2 by lia. replace (N.to_nat (512 * p_nr p) - length (concat v))%nat with 0%nat by lia.
      cbn [firstn]. rewrite app_nil_r. split; auto.
    + rewrite firstn_app, firstn_all2 by lia. replace (N.to_nat (512 * p_nr p) - length (concat v))%nat with 0%nat by lia.
      cbn [firstn]. now rewrite app_nil_r.
  - destruct (in_range_all _ _ _ _) eqn:Er; [|discriminate H]. injection H as <- <-.
    destruct Hask as [|v Ho|]; cbn [kind_of] in Hk; try contradiction.
    split; [cbn; lia|]. rewrite Ho. cbn [op_from_raw N.eqb].
    replace (as_i32 (p_nr p * 512)) with (Z.of_N (512 * p_nr p)) by (rewrite as_i32_small; lia).
    apply UblkDiskSpec.finds_written; auto.
  - injection H as <- <-. destruct Hask as [| |Ho]; cbn [kind_of] in Hk; try contradiction.
    split; [cbn; lia|]. rewrite Ho. cbn [op_from_raw N.eqb]. apply UblkDiskSpec.finds_flushed; auto.
Qed.

Lemma done_ops : forall (d : udisk) n ok d1 t, dstep size d (DDone n ok) = Some (d1, t) -> forall m, d_ops d1 m = upd (d_ops d) n None m.
Proof.
  intros d n ok d1 t H m. cbn [dstep] in H. destruct (d_ops d n) as [[q id k]|]; [|discriminate H].
  destruct ok; [destruct k|]; repeat match type of H with (if ?c then _ else _) = _ => destruct c; [|discriminate H] end;
    injection H as <- _; reflexivity.
Qed.

Lemma step_poll : forall u P d d' E n q id ok data dx, Inv u P d d' E -> moves d [TDone n q id ok data] dx ->
  result u (UPoll n q id ok data) P d d'.
Proof.
  intros * I Mx. unfold result. cbn [ustep]. set (s := u_queue u q).
  apply moves_one in Mx as (ev & Mx). apply item_done in Mx as (k & Ek & Mx).
  destruct (v_ops _ _ _ _ _ I _ _ _ _ Ek) as (p & Hp & Kp & Sp & Xp). unfold key in Kp. injection Kp as Kq Kt. fold s in Xp.
  destruct (v_link _ _ _ _ _ I p Hp) as (L1 & L2 & L3 & ub & L4 & L5). rewrite Kq, Kt in L4. fold s in L4.
  pose proof (v_wf _ _ _ _ _ I q) as Ws. fold s in Ws.
  pose proof (Forall_nth_error _ _ _ _ (wf_bufsl _ _ _ Ws) L4) as Lub. cbv beta in Lub.
  assert (R : runs u d p ub).
  { destruct L5 as [[Wa Wb]|R]; auto. exfalso.
    pose proof (v_one _ _ _ _ _ I q id) as O. fold s in O. unfold owned_n, inflight_n in O. rewrite Xp in O.
    rewrite Kq in Wa. fold s in Wa. apply in_pending_count in Wa. cbn [ureq_of q_tag] in Wa. rewrite Kt in Wa. lia. }
  destruct R as (_ & Hio & r & k' & Hask & Ek' & Hk). rewrite Sp, Kq, Kt, Ek in Ek'. injection Ek' as <-.
  rewrite <- Kq, <- Kt in Ek, Mx.
  destruct (reply_found p r k d n ok dx data (skipn (length (bytes_of data)) (nth id (h_backend s) [])) ub
    (v_sized _ _ _ _ _ I) L3 L2 Lub Hio Hask Ek Hk Mx) as [Hlen Hf].
  destruct (poll_effect s id ok (bytes_of data) Ws (v_one _ _ _ _ _ I q) Hlen) as (E1 & W & U).
  rewrite E1. cbn [bindr].
  assert (Ed : h_done (poll1 id ok (bytes_of data) s) = h_done s ++ [(p_tag p, reply (ureq_of p) ok,
     reply_buf (ureq_of p) ok (bytes_of data ++ skipn (length (bytes_of data)) (nth id (h_backend s) [])) ub)]).
  { unfold poll1. rewrite Xp. cbn [h_done]. rewrite (nth_nth_error _ _ _ _ L4), Kt. reflexivity. }
  destruct (in_split _ _ Hp) as (P1 & P2 & ->).
  exists (uput u q (poll1 id ok (bytes_of data) s)), [TDone n q id ok data], (P1 ++ P2), [TDone n q id ok data].
  split; [reflexivity|]. split.
  { eapply (w_answer _ _ _ q p); [reflexivity|unfold returned; cbn [uput u_queue]; rewrite upd_eq; exact Ed|exact Kq|].
    rewrite <- Sp, <- Kq, <- Kt. apply got_io; auto. rewrite Kt. exact Hf. }
  intros d1 M. apply moves_one in M as (ev1 & M). apply item_done in M as (k1 & Ek1 & M).
  destruct (ahead_done size _ _ _ _ _ _ _ (v_ahead _ _ _ _ _ I) M) as (d1' & M' & A1).
  exists [DDone n ok], d1', E. split; [cbn [drun]; rewrite M'; reflexivity|].
  assert (Fr : h_pending (poll1 id ok (bytes_of data) s) = h_pending s) by apply poll1_frame.
  assert (Lt : (id < length (h_inflight s))%nat) by (apply nth_error_Some; congruence).
  assert (Fi : h_inflight (poll1 id ok (bytes_of data) s) = set_nth id None (h_inflight s)) by (unfold poll1; now rewrite Xp).
  subst q. eapply inv_remove; eauto.
  - intros t Ht. unfold poll1. rewrite Xp. cbn [h_bufs]. apply nth_error_set_nth_neq. congruence.
  - intros r' Hr' _. now rewrite Fr.
  - intros r' Hr'. rewrite Fr in Hr'. split; auto. intros Et.
    pose proof (v_one _ _ _ _ _ I (p_queue p) id) as O. fold s in O. unfold owned_n, inflight_n in O. rewrite Xp in O.
    apply in_pending_count in Hr'. rewrite Et, Kt in Hr'. lia.
  - intros t Ht. rewrite Fi. apply nth_error_set_nth_neq. congruence.
  - intros r'. rewrite Fi, Kt, nth_error_set_nth_eq by auto. discriminate.
  - intros m o Hm. rewrite (done_ops _ _ _ _ _ M) in Hm. unfold upd in Hm. destruct (Nat.eqb_spec m n) as [|Hne]; [discriminate|].
    split; auto. intros X. destruct o as [q0 id0 k0]. cbn [d_ch d_id] in X.
    destruct (v_ops _ _ _ _ _ I _ _ _ _ Hm) as (p0 & H0 & K0 & S0 & X0).
    assert (p0 = p) by (eapply key_inj; [apply I|auto|auto|congruence]). subst p0. congruence.
  - intros m o Hm Hne. rewrite (done_ops _ _ _ _ _ M). unfold upd. destruct (Nat.eqb_spec m n) as [->|]; auto.
    exfalso. apply Hne. rewrite Ek in Hm. injection Hm as <-. reflexivity.
  - intros m rr Hm. destruct (v_soon _ _ _ _ _ I _ _ _ _ Hm) as (p0 & H0 & K0 & S0 & O0 & X0).
    assert (p0 = p) by (eapply key_inj; [apply I|auto|auto|exact K0]). subst p0.
    pose proof (v_one _ _ _ _ _ I (p_queue p) id) as O. fold s in O. unfold owned_n, inflight_n in O. rewrite Xp in O.
    apply in_pending_count in X0. cbn [ureq_of q_tag] in X0. rewrite Kt in X0. fold s in X0. lia.
  - eapply sized_step; [apply I|exact M|]. intros n0 q0 id0 off dat [X|[]]. discriminate X.
Qed.

Lemma step_stop : forall u P d d' E q, Inv u P d d' E -> result u (UStop q) P d d'.
Proof.
  intros * I. exists (uput u q (stop_draining (u_queue u q))), [], P, []. split; [reflexivity|]. split.
  - eapply w_quiet; [reflexivity|]. unfold returned. cbn [uput u_queue]. now rewrite upd_eq.
  - intros d1 M. apply moves_nil in M as ->. exists [], d', E. split; [reflexivity|].
    pose proof (v_wf _ _ _ _ _ I q) as [W1 W2 W3 W4 W5 W6 W7].
    apply inv_put_same; auto; [constructor; auto|]. exact (v_one _ _ _ _ _ I q).
Qed.

Lemma init_inv : forall d d', sized size whole d -> ahead (fun _ => None) d d' -> (forall n, d_ops d n = None) ->
  Inv (uinit max depth) [] d d' (fun _ => None).
Proof.
  intros d d' HS HA Ho. constructor; auto; cbn [uinit u_queue].
  - intros q. apply hinit_wf.
  - intros q. apply (hinit_one max depth).
  - constructor.
  - intros p [].
  - intros q r [].
  - intros q t r H. cbn [hinit h_inflight] in H. apply nth_error_In, repeat_spec in H. discriminate.
  - intros n q id k H. rewrite Ho in H. discriminate.
  - intros n q id r H. discriminate.
Qed.

Lemma step_crash : forall u P d d' E, Inv u P d d' E -> result u UCrash P d d'.
Proof.
  intros * I. exists (uinit max depth), [TCrash], [], [TCrash]. split; [reflexivity|]. split; [now constructor|].
  intros d1 M. apply moves_one in M as (ev & M). pose proof M as M0. apply item_crash in M as (pw & ->).
  destruct (ahead_crash size _ _ _ pw (v_ahead _ _ _ _ _ I)) as (p' & D' & A').
  exists [DCrash p']. eexists. exists (fun _ => None). split; [cbn [drun]; rewrite D'; reflexivity|].
  apply init_inv; auto. eapply sized_step; [apply I|exact M0|]. intros n0 q0 id0 off dat [X|[]]. discriminate X.
Qed.

(** ** Every event *)
Definition reported (e : uevent) : list (titem sector) :=
  match e with UPoll n q id ok data => [TDone n q id ok data] | _ => [] end.

Lemma step_any : forall u P d d' E notes e dx, Inv u P d d' E -> udriver max depth size P notes e ->
  moves d (reported e) dx ->
  (forall n, n <> 0%nat -> (forall q id r, ~ In (TIssue n q id r) notes) -> d_used d' n = false) ->
  (forall m o, d_ops d' m = Some o -> d_used d' m = true) ->
  result u e P d d'.
Proof.
  intros * I D M Hf Hu. destruct e as [q tag buf fl st nr last n|q|n q id ok data|q|].
  - destruct (step_handle _ _ _ _ _ _ _ _ _ _ _ _ _ _ I D) as (u' & P' & w & S & W & es1 & d1' & E1 & R & I1); auto.
    { apply Hf; apply D. }
    exists u', [], P', w. split; auto. split; auto. intros d1 M1. apply moves_nil in M1 as ->. eauto.
  - eapply step_enqueue; eauto.
  - eapply step_poll; eauto.
  - eapply step_stop; eauto.
  - eapply step_crash; eauto.
Qed.

Lemma ustep_short : forall u P d d' E e u' t, Inv u P d d' E -> ustep max depth u e = Ok (u', t) -> t = [] \/ exists i, t = [i].
Proof.
  intros * I H. destruct e as [q tag buf fl st nr last n|q|n q id ok data|q|]; cbn [ustep] in H.
  - destruct (handle _ _ _ _ _ _ _ _ _); cbn [bindr] in H; try discriminate H. injection H as _ <-. auto.
  - set (s := u_queue u q) in *. destruct (h_pending s) as [|r rest] eqn:Ep.
    + unfold enqueue_one in H. rewrite Ep in H. cbn [bindr] in H. injection H as _ <-. left. unfold handed. now rewrite skipn_all.
    + destruct (enqueue_effect s r rest (v_wf _ _ _ _ _ I q) (v_one _ _ _ _ _ I q) Ep) as (bk & ub & _ & _ & E1 & _).
      rewrite E1 in H. cbn [bindr] in H. injection H as _ <-. unfold handed, enq1, forwarded.
      destruct (q_op r); cbn [h_ops]; rewrite ?skipn_snoc, ?skipn_all; cbn [map]; eauto.
  - destruct (poll_all _ _); cbn [bindr] in H; try discriminate H. injection H as _ <-. eauto.
  - injection H as _ <-. auto.
  - injection H as _ <-. eauto.
Qed.

Lemma used_noted : forall es (d0 d : udisk) t n, drun size d0 es = Some (d, t) -> d_used d n = true ->
  d_used d0 n = true \/ exists q id r, In (TIssue n q id r) t.
Proof.
  induction es as [|e es IH]; intros * R U; cbn [drun] in R.
  - injection R as <- <-. auto.
  - destruct (dstep size d0 e) as [[d1 t1]|] eqn:E1; [|discriminate R].
    destruct (drun size d1 es) as [[d2 t2]|] eqn:E2; [|discriminate R]. injection R as <- <-.
    destruct (IH _ _ _ _ E2 U) as [U1|(q & id & r & Hin)]; [|right; exists q, id, r; apply in_or_app; auto].
    apply dstep_inv in E1.
    destruct E1 as [(m & q & id & r & Hun & -> & ->)
     |[(m & q & id & off & dat & ap & ii & vv & Hop & Hnth & Hsz & Hap & -> & ->)
     |[(m & q & id & off & len & gt & ii & Hop & Hsz & Hlen & -> & ->)
     |[(m & q & id & k & Hop & -> & ->)
     |[(m & q & id & off & len & gt & Hop & Hall & -> & ->)
     |[(m & q & id & off & dat & ap & Hop & Hall & -> & ->)
     |[(m & q & id & snap & Hop & -> & ->)
     |(pw & -> & ->)]]]]]]]; cbn [dissue finish d_used] in U1; auto.
    unfold upd in U1. destruct (Nat.eqb_spec n m) as [->|]; auto. right. exists q, id, r. now left.
Qed.

Lemma fresh_facts : forall contents es (d' : udisk) notes, drun size (new_disk contents) es = Some (d', notes) ->
  (forall n, n <> 0%nat -> (forall q id r, ~ In (TIssue n q id r) notes) -> d_used d' n = false) /\
  (forall m o, d_ops d' m = Some o -> d_used d' m = true).
Proof.
  intros * R. split.
  - intros n Hz Hn. destruct (d_used d' n) eqn:U; auto. exfalso.
    destruct (used_noted _ _ _ _ _ R U) as [X|(q & id & r & X)]; [cbn in X; lia|exact (Hn _ _ _ X)].
  - apply issued_run in R. apply R.
Qed.

Lemma sim_session : forall contents u P tr ktr,
  (forall x, (x < size)%nat -> N.of_nat (length (contents x)) = 512) ->
  usession max depth size u P tr ktr ->
  forall es d, drun size (new_disk contents) es = Some (d, tr) ->
  exists es' d' E, drun size (new_disk contents) es' = Some (d', ktr) /\ Inv u P d d' E.
Proof.
  intros * Hc S. induction S as [|u P tr ktr e u' t P' w S IH D G W]; intros es d R.
  - assert (I : Inv (uinit max depth) [] (new_disk contents) (new_disk contents) (fun _ => None)).
    { apply init_inv; auto; [|apply ahead_init]. split; [|discriminate]. intros x e Hx [<-|[]]. apply Hc, Hx. }
    destruct (inv_silents _ _ _ _ _ _ _ I R) as (d' & R' & I'). eauto.
  - destruct (drun_cut _ _ _ _ _ _ R) as (e1 & e2 & dm & R1 & R2).
    destruct (IH _ _ R1) as (es1 & dm' & E & R1' & I1).
    assert (Fin : forall d1 d2 d1', Inv u P d1 d1' E -> moves d1 t d2 -> forall esx, drun size (new_disk contents) esx = Some (d1', ktr) ->
       exists es' d2' E2, drun size (new_disk contents) es' = Some (d2', ktr ++ w) /\ Inv u' P' d2 d2' E2).
    { intros d1 d2 d1' Ix M esx Rx. destruct (fresh_facts _ _ _ _ Rx) as [F1 F2].
      assert (Mr : exists dx, moves d1 (reported e) dx).
      { destruct e; cbn [reported]; try (exists d1; left; now auto). cbn [ustep] in G.
        destruct (poll_all _ _); cbn [bindr] in G; try discriminate G. injection G as _ <-. eauto. }
      destruct Mr as (dx & Mr).
      destruct (step_any _ _ _ _ _ _ _ _ Ix D Mr F1 F2) as (u2 & t2 & P2 & w2 & G2 & W2 & K).
      rewrite G in G2. injection G2 as <- <-.
      destruct (watch_unique _ _ _ _ _ _ _ _ (v_keys _ _ _ _ _ Ix) W W2) as [<- <-].
      destruct (K _ M) as (es2 & d2' & E2 & R3 & I3). exists (esx ++ es2), d2', E2. split; auto. eapply drun_app2; eauto. }
    destruct (ustep_short _ _ _ _ _ _ _ _ I1 G) as [->|(i & ->)].
    + destruct (inv_silents _ _ _ _ _ _ _ I1 R2) as (d' & R2' & I2).
      eapply (Fin d d d'); eauto; [left; auto|].
      pose proof (drun_app2 _ _ _ _ _ _ _ _ R1' R2') as X. rewrite app_nil_r in X. exact X.
    + destruct (drun_item _ _ _ _ _ _ R2) as (e0 & ev & e3 & d1 & d2 & A & B & C).
      destruct (inv_silents _ _ _ _ _ _ _ I1 A) as (d1' & A' & I2).
      pose proof (drun_app2 _ _ _ _ _ _ _ _ R1' A') as X. rewrite app_nil_r in X.
      destruct (Fin d1 d2 d1' I2) with (esx := es1 ++ e0) as (es' & d2' & E2 & R3 & I3); auto.
      { right. exists i, ev. auto. }
      destruct (inv_silents _ _ _ _ _ _ _ I3 C) as (d3' & C' & I4).
      exists (es' ++ e3), d3', E2. split; auto. pose proof (drun_app2 _ _ _ _ _ _ _ _ R3 C') as Y. rewrite app_nil_r in Y. exact Y.
Qed.

(** Whatever comes next is taken, and the driver can make sense of it. *)
Lemma goes_on : forall contents u P tr ktr e es d d1,
  (forall x, (x < size)%nat -> N.of_nat (length (contents x)) = 512) ->
  usession max depth size u P tr ktr -> udriver max depth size P ktr e ->
  drun size (new_disk contents) es = Some (d, tr) ->
  (exists es2, drun size d es2 = Some (d1, reported e)) ->
  exists u' t P' w, ustep max depth u e = Ok (u', t) /\ uwatch u e u' P P' w.
Proof.
  intros * Hc S D R (es2 & R2). destruct (sim_session _ _ _ _ _ Hc S _ _ R) as (es' & d' & E & R' & I).
  assert (exists dx dx' dy esx, Inv u P dx dx' E /\ moves dx (reported e) dy /\ drun size (new_disk contents) esx = Some (dx', ktr))
    as (dx & dx' & dy & esx & Ix & M & Rx).
  { destruct e; cbn [reported] in *; try (exists d, d', d, es'; split; [auto|]; split; [left; now auto|auto]).
    destruct (drun_item _ _ _ _ _ _ R2) as (e0 & ev & e3 & dd1 & dd2 & A & B & C).
    destruct (inv_silents _ _ _ _ _ _ _ I A) as (d1' & A' & I2).
    pose proof (drun_app2 _ _ _ _ _ _ _ _ R' A') as X. rewrite app_nil_r in X.
    exists dd1, d1', dd2, (es' ++ e0). split; auto. split; auto. right. eauto. }
  destruct (fresh_facts _ _ _ _ Rx) as [F1 F2].
  destruct (step_any _ _ _ _ _ _ _ _ Ix D M F1 F2) as (u' & t & P' & w & G & W & _). exists u', t, P', w. auto.
Qed.

(** ** The handlers keep to the contract of their channels *)
Lemma enqueue_free : forall u P d d' E q n id r u', Inv u P d d' E ->
  ustep max depth u (UEnqueue q) = Ok (u', [TIssue n q id r]) -> nth_error (h_inflight (u_queue u q)) id = Some None.
Proof.
  intros * I H. cbn [ustep] in H. set (s := u_queue u q) in *. destruct (h_pending s) as [|r0 rest] eqn:Ep.
  - unfold enqueue_one in H. rewrite Ep in H. cbn [bindr] in H. injection H as _ H. unfold handed in H. rewrite skipn_all in H. discriminate H.
  - destruct (enqueue_effect s r0 rest (v_wf _ _ _ _ _ I q) (v_one _ _ _ _ _ I q) Ep) as (bk & ub & _ & _ & E1 & _ & _ & _ & _ & _ & Hn).
    rewrite E1 in H. cbn [bindr] in H. injection H as _ H. unfold handed, enq1, forwarded in H.
    destruct (q_op r0); cbn [h_ops] in H; rewrite ?skipn_snoc, ?skipn_all in H; cbn [map op_tag] in H; try discriminate H;
      injection H as _ <- _; exact Hn.
Qed.
End Backend.
