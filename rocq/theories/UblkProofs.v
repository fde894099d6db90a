From Coq Require Import List NArith ZArith Arith Bool Lia ZifyBool ZifyNat ZifyN.
From Verif Require Import Base BaseFacts TrackerModel UblkModel UblkSpec.
Import ListNotations.
Local Open Scope N_scope.

(** ** Structure *)
Record wf (max : N) (n : nat) (s : hstate) : Prop := {
  wf_infl : length (h_inflight s) = n;
  wf_back : length (h_backend s) = n;
  wf_bufs : length (h_bufs s) = n;
  wf_backl : Forall (fun b => N.of_nat (length b) = max) (h_backend s);
  wf_bufsl : Forall (fun b => N.of_nat (length b) = max) (h_bufs s);
  wf_pend : Forall (fun r => (q_tag r < n)%nat /\ q_bytes r <= max) (h_pending s);
  wf_req : forall t r, nth_error (h_inflight s) t = Some (Some r) ->
             q_tag r = t /\ q_bytes r <= max /\ q_op r <> OpUnsupported }.

Lemma Forall_set_nth : forall {A} (P : A -> Prop) i x l, P x -> Forall P l -> Forall P (set_nth i x l).
Proof.
  intros A P i x l Hx H. revert i. induction H; intros [|i]; cbn; constructor; auto.
Qed.

Lemma index_of : forall {A} (l : list A) i, (i < length l)%nat -> exists x, nth_error l i = Some x.
Proof. intros A l i H. destruct (nth_error l i) eqn:E; eauto. apply nth_error_None in E. lia. Qed.

Lemma Forall_nth_error : forall {A} (P : A -> Prop) l i x, Forall P l -> nth_error l i = Some x -> P x.
Proof. intros A P l i x H E. rewrite Forall_forall in H. apply H. eapply nth_error_In; eauto. Qed.

Lemma for_tag_app : forall t a b, for_tag t (a ++ b) = for_tag t a ++ for_tag t b.
Proof. intros. apply filter_app. Qed.
Lemma ops_for_app : forall t a b, ops_for t (a ++ b) = ops_for t a ++ ops_for t b.
Proof. intros. apply filter_app. Qed.

Lemma complete_ok : forall tag r s, (tag < length (h_bufs s))%nat ->
  exists b, nth_error (h_bufs s) tag = Some b /\
  complete tag r s = Ok (mk_hstate (h_pending s) (h_inflight s) (h_backend s) (h_bufs s) (h_tr s)
                    (h_draining s) (h_chan s) (h_ops s) (h_done s ++ [(tag, r, b)])).
Proof.
  intros tag r s H. destruct (index_of _ _ H) as [b E]. exists b. split; auto. unfold complete. rewrite E. reflexivity.
Qed.

(** The answer complete_request gives. *)
Definition reply (r : ureq) (ok : bool) : ures :=
  if ok then match q_op r with OpRead | OpWrite => UResult (as_i32 (q_bytes r)) | OpFlush => UResult 0 | _ => UInval end
  else UInval.
Definition reply_buf (r : ureq) (ok : bool) (bk ub : list byte) : list byte :=
  match ok, q_op r with
  | true, OpRead => firstn (N.to_nat (q_bytes r)) bk ++ skipn (N.to_nat (q_bytes r)) ub
  | _, _ => ub
  end.

Lemma set_nth_nth_same : forall {A} i (x : A) l, nth_error l i = Some x -> set_nth i x l = l.
Proof. intros. apply set_nth_same. auto. Qed.

Lemma complete_request_ok : forall max n r ok s bk ub, q_bytes r <= max -> (q_tag r < n)%nat ->
  length (h_bufs s) = n -> nth_error (h_backend s) (q_tag r) = Some bk -> nth_error (h_bufs s) (q_tag r) = Some ub ->
  N.of_nat (length bk) = max -> N.of_nat (length ub) = max ->
  complete_request r ok s = Ok (mk_hstate (h_pending s) (h_inflight s) (h_backend s)
     (set_nth (q_tag r) (reply_buf r ok bk ub) (h_bufs s)) (h_tr s) (h_draining s) (h_chan s) (h_ops s)
     (h_done s ++ [(q_tag r, reply r ok, reply_buf r ok bk ub)])).
Proof.
  intros max n r ok s bk ub Hb Ht Hl Ebk Eub Lbk Lub.
  assert (C : forall rs, complete (q_tag r) rs s = Ok (mk_hstate (h_pending s) (h_inflight s) (h_backend s)
     (set_nth (q_tag r) ub (h_bufs s)) (h_tr s) (h_draining s) (h_chan s) (h_ops s)
     (h_done s ++ [(q_tag r, rs, ub)]))).
  { intros rs. unfold complete. rewrite Eub. rewrite set_nth_same by auto. reflexivity. }
  unfold complete_request, reply, reply_buf. destruct ok; cbn [negb]; [|apply C].
  destruct (q_op r); try apply C.
  unfold index, slice. rewrite Ebk. cbn [bindr].
  replace (Nat.leb 0 (N.to_nat (q_bytes r)) && Nat.leb (N.to_nat (q_bytes r)) (length bk))%bool with true by lia.
  cbn [bindr]. rewrite Eub. cbn [bindr].
  replace (Nat.leb 0 (N.to_nat (q_bytes r)) && Nat.leb (N.to_nat (q_bytes r)) (length ub))%bool with true by lia.
  cbn [bindr]. rewrite Nat.sub_0_r. cbn [skipn].
  unfold complete. cbn [h_bufs h_pending h_inflight h_backend h_tr h_draining h_chan h_ops h_done].
  rewrite nth_error_set_nth_eq by lia. reflexivity.
Qed.

Definition enq_tr (r : ureq) (t : tracker) : tracker :=
  match q_op r with
  | OpRead => t_add_read (q_tag r) (q_sector r) (q_count r) t
  | OpWrite => t_add_write (q_tag r) (q_sector r) (q_count r) t
  | OpFlush => t_add_flush (q_tag r) t
  | OpUnsupported => t
  end.
Definition enq_back (r : ureq) (bk ub : list byte) : list byte :=
  match q_op r with
  | OpWrite => firstn (N.to_nat (q_bytes r)) ub ++ skipn (N.to_nat (q_bytes r)) bk
  | _ => bk
  end.

Lemma enqueue_ok : forall max r s bk ub, q_bytes r <= max ->
  nth_error (h_backend s) (q_tag r) = Some bk -> nth_error (h_bufs s) (q_tag r) = Some ub ->
  N.of_nat (length bk) = max -> N.of_nat (length ub) = max ->
  enqueue r s =
  match q_op r with
  | OpUnsupported => Ok (s, false)
  | _ => Ok (mk_hstate (h_pending s) (h_inflight s) (set_nth (q_tag r) (enq_back r bk ub) (h_backend s)) (h_bufs s)
       (enq_tr r (h_tr s)) (h_draining s) (h_chan s ++ [q_tag r]) (h_ops s ++ forwarded r ub) (h_done s), true)
  end.
Proof.
  intros max r s bk ub Hb Ebk Eub Lbk Lub. unfold enqueue, index. rewrite Ebk. cbn [bindr]. rewrite Eub. cbn [bindr].
  replace (N.of_nat (length bk) <? q_bytes r) with false by lia.
  replace (N.of_nat (length ub) <? q_bytes r) with false by lia. cbn [orb].
  unfold enq_back, enq_tr, forwarded. destruct (q_op r); try reflexivity; rewrite set_nth_same by auto; reflexivity.
Qed.


Lemma inflight_set : forall {A} t t' (x : A) l, (t < length l)%nat ->
  nth_error (set_nth t x l) t' = if (t =? t')%nat then Some x else nth_error l t'.
Proof.
  intros. destruct (Nat.eqb_spec t t'); [subst; apply nth_error_set_nth_eq; auto|apply nth_error_set_nth_neq; auto].
Qed.

Section Fix.
Variables (max : N) (n : nat).

Definition with_pending (s : hstate) (l : list ureq) : hstate :=
  mk_hstate l (h_inflight s) (h_backend s) (h_bufs s) (h_tr s) (h_draining s) (h_chan s) (h_ops s) (h_done s).

(** The effect of enqueuing one request. *)
Definition enq1 (r : ureq) (rest : list ureq) (bk ub : list byte) (s : hstate) : hstate :=
  match q_op r with
  | OpUnsupported => mk_hstate rest (h_inflight s) (h_backend s) (h_bufs s) (h_tr s) (h_draining s) (h_chan s) (h_ops s)
       (h_done s ++ [(q_tag r, UInval, ub)])
  | _ => mk_hstate rest (set_nth (q_tag r) (Some r) (h_inflight s)) (set_nth (q_tag r) (enq_back r bk ub) (h_backend s))
       (h_bufs s) (enq_tr r (h_tr s)) (h_draining s) (h_chan s ++ [q_tag r]) (h_ops s ++ forwarded r ub) (h_done s)
  end.
Definition supported (r : ureq) : bool := match q_op r with OpUnsupported => false | _ => true end.

Lemma enqueue_all_step : forall r rest q s, wf max n s -> (q_tag r < n)%nat -> q_bytes r <= max ->
  exists bk ub, nth_error (h_backend s) (q_tag r) = Some bk /\ nth_error (h_bufs s) (q_tag r) = Some ub /\
    N.of_nat (length bk) = max /\ N.of_nat (length ub) = max /\
    enqueue_all (r :: rest) q s = enqueue_all rest (if supported r then true else q) (enq1 r rest bk ub s).
Proof.
  intros r rest q s W Ht Hb. destruct W as [W1 W2 W3 W4 W5 W6 W7].
  destruct (index_of (h_backend s) (q_tag r)) as [bk Ebk]; [lia|].
  destruct (index_of (h_bufs s) (q_tag r)) as [ub Eub]; [lia|].
  assert (Lbk := Forall_nth_error _ _ _ _ W4 Ebk). assert (Lub := Forall_nth_error _ _ _ _ W5 Eub). cbv beta in Lbk, Lub.
  exists bk, ub. do 4 (split; [assumption|]).
  cbn [enqueue_all]. rewrite (enqueue_ok max r _ bk ub); auto.
  unfold supported, enq1.
  destruct (q_op r); cbn [bindr];
    cbn [h_pending h_inflight h_backend h_bufs h_tr h_draining h_chan h_ops h_done];
    try (replace (q_tag r <? length (h_inflight s))%nat with true by lia; reflexivity).
  unfold complete. cbn [h_pending h_inflight h_backend h_bufs h_tr h_draining h_chan h_ops h_done].
  rewrite Eub. cbn [bindr]. reflexivity.
Qed.

Lemma enq1_wf : forall r rest bk ub s, wf max n s -> (q_tag r < n)%nat -> q_bytes r <= max ->
  N.of_nat (length bk) = max -> N.of_nat (length ub) = max ->
  Forall (fun r => (q_tag r < n)%nat /\ q_bytes r <= max) rest ->
  wf max n (enq1 r rest bk ub s).
Proof.
  intros r rest bk ub s W Ht Hb Lbk Lub Hr. destruct W as [W1 W2 W3 W4 W5 W6 W7]. unfold enq1.
  assert (Lb : N.of_nat (length (enq_back r bk ub)) = max).
  { unfold enq_back. destruct (q_op r); auto. rewrite app_length, firstn_length, skipn_length. lia. }
  destruct (q_op r) eqn:Eop; constructor; cbn [h_pending h_inflight h_backend h_bufs]; rewrite ?set_nth_length; auto;
    try (apply Forall_set_nth; assumption);
    intros t r' E; rewrite inflight_set in E by lia; destruct (Nat.eqb_spec (q_tag r) t); auto;
    injection E as <-; repeat split; auto; congruence.
Qed.

(** ** Counting: exactly once *)
Lemma cnt_snoc : forall t l x, length (for_tag t (l ++ [x])) =
  (length (for_tag t l) + (if (fst (fst x) =? t)%nat then 1 else 0))%nat.
Proof.
  intros. rewrite for_tag_app, app_length. f_equal. unfold for_tag. cbn [filter].
  destruct (fst (fst x) =? t)%nat; reflexivity.
Qed.

Lemma pending_cons : forall t r l, pending_n t (r :: l) = ((if (q_tag r =? t)%nat then 1 else 0) + pending_n t l)%nat.
Proof. intros. unfold pending_n. cbn [filter]. destruct (q_tag r =? t)%nat; reflexivity. Qed.

Lemma enq1_counts : forall r rest bk ub s t, wf max n s -> (q_tag r < n)%nat ->
  (inflight_n (q_tag r) s = 0)%nat ->
  (inflight_n t (enq1 r rest bk ub s) + completed_n t (enq1 r rest bk ub s) =
   inflight_n t s + completed_n t s + (if (q_tag r =? t)%nat then 1 else 0))%nat /\
  (inflight_n t (enq1 r rest bk ub s) <= inflight_n t s + (if (q_tag r =? t)%nat then 1 else 0))%nat.
Proof.
  intros r rest bk ub s t W Ht H0. destruct W. unfold enq1, inflight_n, completed_n in *.
  destruct (q_op r); cbn [h_inflight h_done]; rewrite ?cnt_snoc; cbn [fst];
    try (rewrite inflight_set by lia; destruct (Nat.eqb_spec (q_tag r) t); [subst; rewrite ?H0|]; lia); lia.
Qed.

Lemma enqueue_all_ok : forall rs q s, wf max n s ->
  Forall (fun r => (q_tag r < n)%nat /\ q_bytes r <= max) rs ->
  (forall t, pending_n t rs + inflight_n t s <= 1)%nat -> (rs = [] -> h_pending s = []) ->
  exists s' q', enqueue_all rs q s = Ok (s', q') /\ wf max n s' /\ h_pending s' = [] /\
    h_draining s' = h_draining s /\ h_bufs s' = h_bufs s /\
    (forall t, inflight_n t s' + completed_n t s' = pending_n t rs + inflight_n t s + completed_n t s)%nat /\
    (forall t, inflight_n t s' <= 1)%nat.
Proof.
  induction rs as [|r rs IH]; intros q s W F U Hp.
  - exists s, q. cbn [enqueue_all pending_n filter length]. split; [reflexivity|]. split; [assumption|].
    split; [auto|]. split; [reflexivity|]. split; [reflexivity|]. split; [intros; lia|].
    intros t. specialize (U t). cbn [pending_n filter length] in U. lia.
  - inversion F as [|? ? [Ht Hb] F']; subst.
    destruct (enqueue_all_step r rs q s W Ht Hb) as (bk & ub & Ebk & Eub & Lbk & Lub & ->).
    assert (I0 : (inflight_n (q_tag r) s = 0)%nat).
    { specialize (U (q_tag r)). rewrite pending_cons, Nat.eqb_refl in U. lia. }
    assert (W1 := enq1_wf r rs bk ub s W Ht Hb Lbk Lub F').
    assert (C1 := fun t => enq1_counts r rs bk ub s t W Ht I0).
    destruct (IH (if supported r then true else q) (enq1 r rs bk ub s) W1 F') as (s' & q' & E & W' & P' & D' & B' & N' & L').
    + intros t. specialize (U t). rewrite pending_cons in U. destruct (C1 t). lia.
    + intros ->. unfold enq1. destruct (q_op r); reflexivity.
    + exists s', q'. split; [exact E|]. split; [exact W'|]. split; [exact P'|]. 
      split; [rewrite D'; unfold enq1; destruct (q_op r); reflexivity|].
      split; [rewrite B'; unfold enq1; destruct (q_op r); reflexivity|].
      split; [|exact L'].
      intros t. rewrite N'. rewrite pending_cons. destruct (C1 t). lia.
Qed.

Lemma fail_all_ok : forall ts s, wf max n s -> Forall (fun t => (t < n)%nat) ts ->
  exists s', fail_all ts s = Ok s' /\ wf max n s' /\ h_pending s' = h_pending s /\
    h_draining s' = h_draining s /\ h_bufs s' = h_bufs s /\ h_ops s' = h_ops s /\
    (forall t, inflight_n t s' + completed_n t s' = inflight_n t s + completed_n t s)%nat /\
    (forall t, inflight_n t s' <= inflight_n t s)%nat /\
    (forall t, In t ts -> inflight_n t s' = 0%nat).
Proof.
  induction ts as [|t0 ts IH]; intros s W F.
  - exists s. cbn [fail_all]. split; [reflexivity|]. split; [assumption|]. do 4 (split; [reflexivity|]).
    split; [reflexivity|]. split; [lia|]. intros ? [].
  - inversion F; subst. cbn [fail_all].
    assert (Skip : inflight_n t0 s = 0%nat -> exists s', fail_all ts s = Ok s' /\ wf max n s' /\ h_pending s' = h_pending s /\
      h_draining s' = h_draining s /\ h_bufs s' = h_bufs s /\ h_ops s' = h_ops s /\
      (forall t, inflight_n t s' + completed_n t s' = inflight_n t s + completed_n t s)%nat /\
      (forall t, inflight_n t s' <= inflight_n t s)%nat /\
      (forall t, In t (t0 :: ts) -> inflight_n t s' = 0%nat)).
    { intros Z. destruct (IH s W H2) as (s' & E & W' & A1 & A2 & A3 & A4 & A5 & A6 & A7). exists s'.
      do 8 (split; [assumption|]). intros t [<-|Hin]; [specialize (A6 t0); lia|auto]. }
    destruct (nth_error (h_inflight s) t0) as [[r|]|] eqn:E0;
      try (apply Skip; unfold inflight_n; rewrite E0; reflexivity). clear Skip.
    pose proof W as [W1 W2 W3 W4 W5 W6 W7].
    destruct (index_of (h_bufs s) t0) as [ub Eub]; [lia|].
    unfold complete. cbn [h_pending h_inflight h_backend h_bufs h_tr h_draining h_chan h_ops h_done].
    rewrite Eub. cbn [bindr].
    match goal with |- context [fail_all ts ?x] => set (s1 := x) end.
    assert (Wf1 : wf max n s1).
    { constructor; unfold s1; cbn [h_pending h_inflight h_backend h_bufs]; rewrite ?set_nth_length; auto.
      intros t r' E. rewrite inflight_set in E by lia. destruct (Nat.eqb_spec t0 t); [discriminate|auto]. }
    assert (C1 : forall t, inflight_n t s1 = if (t0 =? t)%nat then 0%nat else inflight_n t s).
    { intros t. unfold inflight_n, s1. cbn [h_inflight]. rewrite inflight_set by lia. destruct (t0 =? t)%nat; reflexivity. }
    assert (D1 : forall t, completed_n t s1 = (completed_n t s + (if (t0 =? t)%nat then 1 else 0))%nat).
    { intros t. unfold completed_n, s1. cbn [h_done]. rewrite cnt_snoc. reflexivity. }
    assert (I1 : inflight_n t0 s = 1%nat) by (unfold inflight_n; rewrite E0; reflexivity).
    destruct (IH s1 Wf1 H2) as (s' & E & W' & A1 & A2 & A3 & A4 & A5 & A6 & A7). exists s'.
    split; [exact E|]. split; [exact W'|]. split; [exact A1|]. split; [exact A2|]. split; [exact A3|]. split; [exact A4|].
    split; [|split].
    + intros t. rewrite A5, C1, D1. destruct (Nat.eqb_spec t0 t); [subst|]; lia.
    + intros t. specialize (A6 t). rewrite C1 in A6. destruct (Nat.eqb_spec t0 t); lia.
    + intros t [<-|Hin]; [|auto]. specialize (A6 t0). rewrite C1, Nat.eqb_refl in A6. lia.
Qed.

(** The effect of one polled completion. *)
Definition poll1 (id : nat) (ok : bool) (data : list byte) (s : hstate) : hstate :=
  let bk := data ++ skipn (length data) (nth id (h_backend s) []) in
  match nth_error (h_inflight s) id with
  | Some (Some r) =>
    let ub := nth id (h_bufs s) [] in
    mk_hstate (h_pending s) (set_nth id None (h_inflight s)) (set_nth id bk (h_backend s))
      (set_nth id (reply_buf r ok bk ub) (h_bufs s)) (t_clear id (h_tr s)) (h_draining s)
      (remove1 id (h_chan s)) (h_ops s) (h_done s ++ [(id, reply r ok, reply_buf r ok bk ub)])
  | _ => mk_hstate (h_pending s) (h_inflight s) (set_nth id bk (h_backend s)) (h_bufs s) (h_tr s)
      (h_draining s) (remove1 id (h_chan s)) (h_ops s) (h_done s)
  end.

Lemma nth_nth_error : forall {A} (l : list A) i d x, nth_error l i = Some x -> nth i l d = x.
Proof. intros. apply nth_error_nth. auto. Qed.

Lemma set_nth_out : forall {A} i (x : A) l, (length l <= i)%nat -> set_nth i x l = l.
Proof. induction i; intros x [|y l] H; cbn in *; auto; try lia. f_equal. apply IHi. lia. Qed.

Lemma poll_all_step : forall id ok data rest s, wf max n s -> N.of_nat (length data) <= max ->
  poll_all ((id, ok, data) :: rest) s = poll_all rest (poll1 id ok data s) /\ wf max n (poll1 id ok data s).
Proof.
  intros id ok data rest s W Hd. pose proof W as [W1 W2 W3 W4 W5 W6 W7].
  cbn [poll_all]. unfold poll1. cbn [h_pending h_inflight h_backend h_bufs h_tr h_draining h_chan h_ops h_done].
  set (bk := data ++ skipn (length data) (nth id (h_backend s) [])).
  assert (Lbk : (id < n)%nat -> N.of_nat (length bk) = max).
  { intros Hi. destruct (index_of (h_backend s) id) as [x Ex]; [lia|]. unfold bk. rewrite (nth_nth_error _ _ _ _ Ex).
    pose proof (Forall_nth_error _ _ _ _ W4 Ex) as Lx. cbv beta in Lx. rewrite app_length, skipn_length. lia. }
  assert (Fbk : Forall (fun b => N.of_nat (length b) = max) (set_nth id bk (h_backend s))).
  { destruct (Nat.lt_ge_cases id n); [apply Forall_set_nth; auto|]. rewrite set_nth_out by lia. auto. }
  destruct (nth_error (h_inflight s) id) as [[r|]|] eqn:E.
  - assert (Hi : (id < n)%nat) by (rewrite <- W1; apply nth_error_Some; congruence).
    destruct (W7 _ _ E) as (Tr & Br & Or). specialize (Lbk Hi).
    destruct (index_of (h_bufs s) id) as [ub Eub]; [lia|].
    pose proof (Forall_nth_error _ _ _ _ W5 Eub) as Lub. cbv beta in Lub.
    rewrite (nth_nth_error _ _ _ _ Eub).
    rewrite (complete_request_ok max n r ok _ bk ub); cbn [h_bufs h_backend]; auto; try lia.
    2:{ rewrite Tr. apply nth_error_set_nth_eq. lia. }
    2:{ rewrite Tr. auto. }
    cbn [bindr h_pending h_inflight h_backend h_bufs h_tr h_draining h_chan h_ops h_done].
    rewrite Tr. split; [reflexivity|].
    constructor; cbn [h_pending h_inflight h_backend h_bufs]; rewrite ?set_nth_length; auto.
    + apply Forall_set_nth; auto. unfold reply_buf. destruct ok; auto. destruct (q_op r); auto.
      rewrite app_length, firstn_length, skipn_length. lia.
    + intros t r' E'. rewrite inflight_set in E' by lia. destruct (Nat.eqb_spec id t); [discriminate|auto].
  - split; [reflexivity|]. constructor; cbn [h_pending h_inflight h_backend h_bufs]; rewrite ?set_nth_length; auto.
  - split; [reflexivity|]. constructor; cbn [h_pending h_inflight h_backend h_bufs]; rewrite ?set_nth_length; auto.
Qed.

Lemma poll1_counts : forall id ok data s t, wf max n s ->
  (inflight_n t (poll1 id ok data s) + completed_n t (poll1 id ok data s) = inflight_n t s + completed_n t s)%nat /\
  (inflight_n t (poll1 id ok data s) <= inflight_n t s)%nat.
Proof.
  intros id ok data s t W. destruct W. unfold poll1, inflight_n, completed_n.
  destruct (nth_error (h_inflight s) id) as [[r|]|] eqn:E; cbn [h_inflight h_done]; try lia.
  assert (id < n)%nat by (rewrite <- wf_infl0; apply nth_error_Some; congruence).
  rewrite inflight_set by lia. rewrite cnt_snoc. cbn [fst]. destruct (Nat.eqb_spec id t); [subst; rewrite E|]; lia.
Qed.

Lemma poll1_frame : forall id ok data s, h_pending (poll1 id ok data s) = h_pending s /\
  h_draining (poll1 id ok data s) = h_draining s /\ h_ops (poll1 id ok data s) = h_ops s.
Proof. intros. unfold poll1. destruct (nth_error (h_inflight s) id) as [[r|]|]; auto. Qed.

Lemma poll_all_ok : forall ps s, wf max n s -> Forall (fun p => N.of_nat (length (snd p)) <= max) ps ->
  exists s', poll_all ps s = Ok s' /\ wf max n s' /\ h_pending s' = h_pending s /\ h_draining s' = h_draining s /\
    h_ops s' = h_ops s /\
    (forall t, inflight_n t s' + completed_n t s' = inflight_n t s + completed_n t s)%nat /\
    (forall t, inflight_n t s' <= inflight_n t s)%nat.
Proof.
  induction ps as [|[[id ok] data] ps IH]; intros s W F.
  - exists s. split; [reflexivity|]. split; [assumption|]. do 3 (split; [reflexivity|]). split; [reflexivity|lia].
  - inversion F; subst. cbn [snd] in H1. destruct (poll_all_step id ok data ps s W H1) as [-> W1].
    destruct (IH _ W1 H2) as (s' & E & W' & A1 & A2 & A3 & A4 & A5). exists s'.
    destruct (poll1_frame id ok data s) as (F1 & F2 & F3).
    split; [exact E|]. split; [exact W'|]. split; [congruence|]. split; [congruence|]. split; [congruence|].
    split; intros t; destruct (poll1_counts id ok data s t W); [rewrite A4; lia|specialize (A5 t); lia].
Qed.

Definition one_each (s : hstate) : Prop := forall t, (owned_n t s <= 1)%nat.


Lemma hstep_ok : forall s e, wf max n s -> one_each s -> driver_ok max n s e ->
  exists s', hstep max s e = Ok s' /\ wf max n s' /\ one_each s' /\
    forall t, (handed_n t [e] + completed_n t s + owned_n t s = completed_n t s' + owned_n t s')%nat.
Proof.
  intros s e W U D. destruct e as [tgt tag d fl st nr last|busy ok ps]; cbn [hstep driver_ok] in *.
  - destruct D as [D1 D2]. unfold handle. destruct tgt.
    { exists s. split; [reflexivity|]. split; [auto|]. split; [auto|]. intros t. cbn. lia. }
    destruct (D2 eq_refl) as (Ht & O0 & Ld). pose proof W as [W1 W2 W3 W4 W5 W6 W7].
    destruct (N.ltb_spec max (nr * 512)).
    + unfold complete. cbn [h_pending h_inflight h_backend h_bufs h_tr h_draining h_chan h_ops h_done].
      rewrite nth_error_set_nth_eq by lia. eexists. split; [reflexivity|]. split; [|split].
      * constructor; cbn [h_pending h_inflight h_backend h_bufs]; rewrite ?set_nth_length; auto using Forall_set_nth.
      * intros t. apply (U t).
      * intros t. unfold completed_n, owned_n, inflight_n. cbn [h_done h_pending h_inflight]. rewrite cnt_snoc. cbn [fst].
        unfold handed_n. cbn [filter negb andb]. destruct (tag =? t)%nat; cbn [length]; lia.
    + eexists. split; [reflexivity|]. split; [|split].
      * constructor; cbn [h_pending h_inflight h_backend h_bufs]; rewrite ?set_nth_length; auto using Forall_set_nth.
        apply Forall_app; split; auto.
      * intros t. unfold owned_n, inflight_n. cbn [h_pending h_inflight]. unfold pending_n.
        rewrite filter_app, app_length. cbn [filter q_tag]. specialize (U t). unfold owned_n, inflight_n, pending_n in U, O0.
        destruct (Nat.eqb_spec tag t); [subst t; cbn [length]; rewrite Nat.add_comm; cbn [plus]; lia|cbn [length]; lia].
      * intros t. unfold completed_n, owned_n, inflight_n. cbn [h_done h_pending h_inflight]. unfold pending_n.
        rewrite filter_app, app_length. cbn [filter q_tag]. unfold handed_n. cbn [filter negb andb].
        destruct (tag =? t)%nat; cbn [length]; lia.
  - destruct D as [D1 D2]. unfold iteration.
    destruct (_ && negb busy) eqn:Ec.
    { exists (stop_draining s). split; [reflexivity|]. split; [destruct W; constructor; auto|]. split; [exact U|].
      intros t. reflexivity. }
    destruct (enqueue_all_ok (h_pending s) false s W (wf_pend _ _ _ W) U (fun x => x))
      as (s1 & q & -> & W1 & P1 & Dr1 & B1 & N1 & L1).
    cbn [bindr].
    assert (O1 : forall t, (completed_n t s1 + owned_n t s1 = completed_n t s + owned_n t s)%nat).
    { intros t. specialize (N1 t). unfold owned_n. rewrite P1. change (pending_n t []) with 0%nat. lia. }
    destruct (q && negb ok) eqn:Eq.
    + destruct (fail_all_ok (seq 0 (length (h_inflight s1))) s1 W1) as (s2 & -> & W2 & P2 & _ & _ & _ & N2 & L2 & _).
      { apply Forall_forall. intros t Hin. apply in_seq in Hin. rewrite (wf_infl _ _ _ W1) in Hin. lia. }
      cbn [bindr]. exists (stop_draining s2). split; [reflexivity|]. split; [destruct W2; constructor; auto|].
      assert (E : forall t, owned_n t (stop_draining s2) = inflight_n t s2).
      { intros t. unfold owned_n, stop_draining. cbn [h_pending]. rewrite P2, P1. reflexivity. }
      split; intros t; rewrite ?E.
      * specialize (L2 t). specialize (L1 t). lia.
      * specialize (N2 t). specialize (N1 t).
        change (completed_n t (stop_draining s2)) with (completed_n t s2). unfold owned_n at 1. cbn [handed_n filter length]. lia.
    + destruct (poll_all_ok ps s1 W1 D2) as (s2 & -> & W2 & P2 & _ & _ & N2 & L2).
      exists s2. split; [reflexivity|]. split; [exact W2|].
      assert (E : forall t, owned_n t s2 = inflight_n t s2).
      { intros t. unfold owned_n. rewrite P2, P1. reflexivity. }
      split; intros t; rewrite ?E.
      * specialize (L2 t). specialize (L1 t). lia.
      * specialize (N2 t). specialize (N1 t). unfold owned_n at 1. cbn [handed_n filter length]. lia.
Qed.

Lemma hinit_wf : wf max n (hinit max n).
Proof.
  constructor; cbn [hinit h_inflight h_backend h_bufs h_pending]; rewrite ?repeat_length; auto.
  1-2: apply Forall_forall; intros x Hx; apply repeat_spec in Hx; subst; rewrite repeat_length; lia.
  intros t r E. apply nth_error_In, repeat_spec in E. discriminate.
Qed.
Lemma hinit_one : one_each (hinit max n).
Proof.
  intros t. unfold owned_n, inflight_n, hinit. cbn [h_pending h_inflight pending_n filter length].
  destruct (nth_error (repeat None n) t) as [[r|]|] eqn:E; lia.
Qed.

Lemma hrun_ok : forall es s, wf max n s -> one_each s -> along max (driver_ok max n) s es ->
  exists s', hrun max s es = Ok s' /\ wf max n s' /\ one_each s' /\
    forall t, (handed_n t es + completed_n t s + owned_n t s = completed_n t s' + owned_n t s')%nat.
Proof.
  induction es as [|e es IH]; intros s W U A.
  - exists s. split; [reflexivity|]. split; auto.
  - destruct A as [A1 A2]. destruct (hstep_ok s e W U A1) as (s1 & E1 & W1 & U1 & N1).
    destruct (IH s1 W1 U1 (A2 _ E1)) as (s' & E & W' & U' & N'). exists s'.
    cbn [hrun]. rewrite E1. cbn [bindr]. split; [exact E|]. split; [exact W'|]. split; [exact U'|].
    intros t. specialize (N1 t). specialize (N' t).
    assert (H : handed_n t (e :: es) = (handed_n t [e] + handed_n t es)%nat).
    { unfold handed_n. cbn [filter]. destruct e; try reflexivity. destruct (negb is_tgt && (tag =? t)%nat)%bool; reflexivity. }
    lia.
Qed.

(** ** The channel's view: the tags in flight are those outstanding in the channel *)
Definition chan_inv (s : hstate) : Prop := forall t, count_occ Nat.eq_dec (h_chan s) t = inflight_n t s.

Lemma count_remove1 : forall x l t, count_occ Nat.eq_dec (remove1 x l) t =
  if (x =? t)%nat then pred (count_occ Nat.eq_dec l t) else count_occ Nat.eq_dec l t.
Proof.
  induction l as [|y l IH]; intros t; cbn [remove1 count_occ].
  - destruct (x =? t)%nat; reflexivity.
  - destruct (Nat.eqb_spec x y).
    + subst y. destruct (Nat.eq_dec x t), (Nat.eqb_spec x t); try congruence; reflexivity.
    + cbn [count_occ]. rewrite IH. destruct (Nat.eq_dec y t), (Nat.eqb_spec x t); subst; try congruence; lia.
Qed.

Lemma enqueue_all_chan : forall rs q s s' q', wf max n s ->
  Forall (fun r => (q_tag r < n)%nat /\ q_bytes r <= max) rs ->
  (forall t, pending_n t rs + inflight_n t s <= 1)%nat ->
  chan_inv s -> enqueue_all rs q s = Ok (s', q') -> chan_inv s'.
Proof.
  induction rs as [|r rs IH]; intros q s s' q' W F U C E.
  - cbn [enqueue_all] in E. injection E as <- <-. exact C.
  - inversion F as [|? ? [Ht Hb] F']; subst.
    destruct (enqueue_all_step r rs q s W Ht Hb) as (bk & ub & Ebk & Eub & Lbk & Lub & Ee). rewrite Ee in E.
    assert (I0 : (inflight_n (q_tag r) s = 0)%nat).
    { specialize (U (q_tag r)). rewrite pending_cons, Nat.eqb_refl in U. lia. }
    apply (IH _ _ _ _ (enq1_wf r rs bk ub s W Ht Hb Lbk Lub F') F') in E; auto.
    + intros t. destruct (enq1_counts r rs bk ub s t W Ht I0). specialize (U t). rewrite pending_cons in U. lia.
    + intros t. pose proof (C t) as Ct. unfold enq1, inflight_n in *. destruct W.
      destruct (q_op r); cbn [h_chan h_inflight]; try exact Ct;
        rewrite count_occ_app; cbn [count_occ]; rewrite inflight_set by lia;
        destruct (Nat.eq_dec (q_tag r) t), (Nat.eqb_spec (q_tag r) t); subst; try congruence;
        rewrite ?I0 in *; lia.
Qed.

Lemma poll_all_chan : forall ps s s', wf max n s -> Forall (fun p => N.of_nat (length (snd p)) <= max) ps ->
  chan_inv s -> poll_all ps s = Ok s' -> chan_inv s'.
Proof.
  induction ps as [|[[id ok] data] ps IH]; intros s s' W F C E.
  - cbn in E. injection E as <-. exact C.
  - inversion F; subst. cbn [snd] in H1. destruct (poll_all_step id ok data ps s W H1) as [Ee W1]. rewrite Ee in E.
    apply (IH _ _ W1 H2) in E; auto. intros t. pose proof (C t) as Ct. unfold poll1, inflight_n in *. destruct W.
    destruct (nth_error (h_inflight s) id) as [[r|]|] eqn:Ei; cbn [h_chan h_inflight]; rewrite count_remove1.
    + assert (id < n)%nat by (rewrite <- wf_infl0; apply nth_error_Some; congruence).
      rewrite inflight_set by lia. destruct (Nat.eqb_spec id t); [subst; rewrite Ei in Ct; lia|exact Ct].
    + destruct (Nat.eqb_spec id t); [subst; rewrite Ei in *; lia|exact Ct].
    + destruct (Nat.eqb_spec id t); [subst; rewrite Ei in *; lia|exact Ct].
Qed.

Lemma hstep_chan : forall s e s', wf max n s -> one_each s -> driver_ok max n s e -> channel_ok s e ->
  chan_inv s -> hstep max s e = Ok s' ->
  chan_inv s' /\ (match e with EIter _ _ _ => h_draining s' = false -> forall t, owned_n t s' = 0%nat | _ => True end).
Proof.
  intros s e s' W U D K C E. destruct e as [tgt tag d fl st nr last|busy ok ps]; cbn [hstep driver_ok channel_ok] in *.
  - split; [|exact Logic.I]. unfold handle in E. destruct tgt; [injection E as <-; exact C|].
    destruct (max <? nr * 512).
    + unfold complete in E. destruct (nth_error _ tag); [injection E as <-; exact C|discriminate].
    + injection E as <-. exact C.
  - destruct D as [D1 D2]. destruct K as [-> K]. unfold iteration in E.
    destruct (match h_pending s with [] => true | _ => false end && negb busy) eqn:Ec.
    { injection E as <-. split; [exact C|]. intros _ t. unfold owned_n, stop_draining. cbn [h_pending].
      apply andb_prop in Ec as [Ep Eb]. destruct (h_pending s); [|discriminate].
      destruct busy; [discriminate|]. specialize (K eq_refl). specialize (C t). rewrite K in C. cbn in C.
      unfold inflight_n in *. cbn [h_inflight]. cbn [pending_n filter length]. lia. }
    destruct (enqueue_all_ok (h_pending s) false s W (wf_pend _ _ _ W) U (fun x => x))
      as (s1 & q & Ee & W1 & P1 & Dr1 & B1 & N1 & L1).
    rewrite Ee in E. cbn [bindr] in E. rewrite andb_false_r in E.
    apply enqueue_all_chan in Ee; auto using (wf_pend _ _ _ W).
    destruct (poll_all_ok ps s1 W1 D2) as (s2 & Es2 & _ & _ & Dr2 & _).
    split; [eapply poll_all_chan; eauto|]. intros Hd. rewrite Es2 in E. injection E as <-. congruence.
Qed.

(** ** Answers *)
Lemma for_tag_one : forall t x r b, for_tag t [(x, r, b)] = if (x =? t)%nat then [(x, r, b)] else [].
Proof. intros. unfold for_tag. cbn [filter fst]. destruct (x =? t)%nat; reflexivity. Qed.

Lemma forwarded_tag : forall r d t, ops_for t (forwarded r d) = if (q_tag r =? t)%nat then forwarded r d else [].
Proof.
  intros. unfold forwarded, ops_for. destruct (q_op r); cbn [filter op_tag]; destruct (q_tag r =? t)%nat; reflexivity.
Qed.

(** Enqueuing does not disturb an issued request. *)
Lemma enqueue_all_issued : forall rs q s s' q' t, wf max n s ->
  Forall (fun r => (q_tag r < n)%nat /\ q_bytes r <= max) rs ->
  pending_n t rs = 0%nat -> enqueue_all rs q s = Ok (s', q') ->
  nth_error (h_inflight s') t = nth_error (h_inflight s) t /\ nth_error (h_bufs s') t = nth_error (h_bufs s) t /\
  for_tag t (h_done s') = for_tag t (h_done s) /\ ops_for t (h_ops s') = ops_for t (h_ops s).
Proof.
  induction rs as [|r rs IH]; intros q s s' q' t W F P E.
  - cbn in E. injection E as <- <-. auto.
  - inversion F as [|? ? [Ht Hb] F']; subst. rewrite pending_cons in P.
    destruct (Nat.eqb_spec (q_tag r) t) as [|Nt]; [discriminate|].
    destruct (enqueue_all_step r rs q s W Ht Hb) as (bk & ub & Ebk & Eub & Lbk & Lub & Ee). rewrite Ee in E.
    apply (IH _ _ _ _ t (enq1_wf r rs bk ub s W Ht Hb Lbk Lub F') F') in E; auto.
    destruct E as (E1 & E2 & E3 & E4). rewrite E1, E2, E3, E4. destruct W. unfold enq1.
    destruct (q_op r) eqn:Eo; cbn [h_inflight h_bufs h_done h_ops]; rewrite ?inflight_set by lia;
      rewrite ?for_tag_app, ?ops_for_app, ?forwarded_tag, ?for_tag_one;
      replace (q_tag r =? t)%nat with false by lia; rewrite ?app_nil_r; auto.
Qed.

Lemma enqueue_all_waiting : forall rs q s s' q' r d, wf max n s ->
  Forall (fun r => (q_tag r < n)%nat /\ q_bytes r <= max) rs ->
  (forall t, pending_n t rs + inflight_n t s <= 1)%nat ->
  In r rs -> nth_error (h_bufs s) (q_tag r) = Some d -> enqueue_all rs q s = Ok (s', q') ->
  ops_for (q_tag r) (h_ops s') = ops_for (q_tag r) (h_ops s) ++ forwarded r d /\
  (supported r = true -> q' = true) /\
  ((supported r = true /\ issued r d s' /\ for_tag (q_tag r) (h_done s') = for_tag (q_tag r) (h_done s)) \/
   (supported r = false /\ nth_error (h_inflight s') (q_tag r) = nth_error (h_inflight s) (q_tag r) /\
    for_tag (q_tag r) (h_done s') = for_tag (q_tag r) (h_done s) ++ [(q_tag r, UInval, d)])).
Proof.
  assert (Q : forall rs q s s' q', wf max n s -> Forall (fun r => (q_tag r < n)%nat /\ q_bytes r <= max) rs ->
            enqueue_all rs q s = Ok (s', q') -> q = true -> q' = true).
  { induction rs as [|x rs IH]; intros q s s' q' W F E ->.
    - cbn in E. injection E as <- <-. reflexivity.
    - inversion F as [|? ? [Ht Hb] F']; subst.
      destruct (enqueue_all_step x rs true s W Ht Hb) as (bk & ub & Ebk & Eub & Lbk & Lub & Ee). rewrite Ee in E.
      apply (IH _ _ _ _ (enq1_wf x rs bk ub s W Ht Hb Lbk Lub F') F') in E; auto. destruct (supported x); reflexivity. }
  induction rs as [|x rs IH]; intros q s s' q' r d W F U Hin Hbuf E; [contradiction|].
  inversion F as [|? ? [Ht Hb] F']; subst.
  destruct (enqueue_all_step x rs q s W Ht Hb) as (bk & ub & Ebk & Eub & Lbk & Lub & Ee). rewrite Ee in E.
  assert (W1 := enq1_wf x rs bk ub s W Ht Hb Lbk Lub F').
  assert (I0 : (inflight_n (q_tag x) s = 0)%nat).
  { specialize (U (q_tag x)). rewrite pending_cons, Nat.eqb_refl in U. lia. }
  destruct Hin as [<-|Hin].
  - rewrite Hbuf in Eub. injection Eub as <-.
    assert (P0 : pending_n (q_tag x) rs = 0%nat).
    { specialize (U (q_tag x)). rewrite pending_cons, Nat.eqb_refl in U. lia. }
    pose proof E as E'.
    apply (enqueue_all_issued _ _ _ _ _ (q_tag x) W1 F' P0) in E as (E1 & E2 & E3 & E4).
    unfold issued. rewrite E1, E2, E3, E4. unfold enq1, supported in *.
    assert (Lx : (q_tag x < length (h_inflight s))%nat) by (destruct W; lia).
    destruct (q_op x) eqn:Eo; cbn [h_inflight h_bufs h_done h_ops];
      rewrite ?inflight_set by exact Lx; rewrite ?ops_for_app, ?forwarded_tag, ?for_tag_app, ?for_tag_one, ?Nat.eqb_refl.
    1-3: split; [reflexivity|]; split; [intros _; eapply Q; eauto|]; left; auto.
    split; [unfold forwarded; rewrite Eo, app_nil_r; reflexivity|]. split; [discriminate|]. right. auto.
  - assert (Nt : q_tag x <> q_tag r).
    { intros Et. specialize (U (q_tag x)). rewrite pending_cons, Nat.eqb_refl in U.
      assert (1 <= pending_n (q_tag x) rs)%nat; [|lia]. unfold pending_n.
      assert (Hf : In r (filter (fun r0 => (q_tag r0 =? q_tag x)%nat) rs)) by (apply filter_In; split; [auto|rewrite Et; apply Nat.eqb_refl]).
      destruct (filter _ rs); [contradiction|cbn; lia]. }
    assert (B1 : nth_error (h_bufs (enq1 x rs bk ub s)) (q_tag r) = Some d) by (unfold enq1; destruct (q_op x); exact Hbuf).
    apply (IH _ _ _ _ r d W1 F') in E; auto.
    2:{ intros t. destruct (enq1_counts x rs bk ub s t W Ht I0). specialize (U t). rewrite pending_cons in U. lia. }
    destruct E as (E1 & E2 & E3). rewrite E1.
    assert (S1 : ops_for (q_tag r) (h_ops (enq1 x rs bk ub s)) = ops_for (q_tag r) (h_ops s)).
    { unfold enq1. destruct (q_op x); cbn [h_ops]; auto; rewrite ops_for_app, forwarded_tag;
        replace (q_tag x =? q_tag r)%nat with false by lia; apply app_nil_r. }
    assert (S2 : for_tag (q_tag r) (h_done (enq1 x rs bk ub s)) = for_tag (q_tag r) (h_done s)).
    { unfold enq1. destruct (q_op x); cbn [h_done]; auto. rewrite for_tag_app, for_tag_one.
      replace (q_tag x =? q_tag r)%nat with false by lia. apply app_nil_r. }
    assert (S3 : nth_error (h_inflight (enq1 x rs bk ub s)) (q_tag r) = nth_error (h_inflight s) (q_tag r)).
    { destruct W. unfold enq1. destruct (q_op x); cbn [h_inflight]; auto; rewrite inflight_set by lia;
        replace (q_tag x =? q_tag r)%nat with false by lia; auto. }
    rewrite S1, S2, S3 in *. auto.
Qed.

Lemma fail_all_issued : forall ts s s' r d, wf max n s -> Forall (fun t => (t < n)%nat) ts ->
  issued r d s -> fail_all ts s = Ok s' ->
  (~ In (q_tag r) ts -> issued r d s' /\ for_tag (q_tag r) (h_done s') = for_tag (q_tag r) (h_done s)) /\
  (In (q_tag r) ts -> for_tag (q_tag r) (h_done s') = for_tag (q_tag r) (h_done s) ++ [(q_tag r, UInval, d)]).
Proof.
  assert (Gone : forall ts s s' t, nth_error (h_inflight s) t = Some None -> fail_all ts s = Ok s' ->
      for_tag t (h_done s') = for_tag t (h_done s)).
  { induction ts as [|t0 ts IH]; intros s s' t G E; cbn [fail_all] in E; [injection E as <-; reflexivity|].
    destruct (nth_error (h_inflight s) t0) as [[x|]|] eqn:E0; try (eapply IH; eauto; fail).
    unfold complete in E. cbn [h_bufs h_pending h_inflight h_backend h_tr h_draining h_chan h_ops h_done] in E.
    destruct (nth_error (h_bufs s) t0); [|discriminate]. cbn [bindr] in E.
    assert (t0 <> t) by congruence.
    apply (IH _ _ t) in E; [|cbn [h_inflight]; rewrite nth_error_set_nth_neq by auto; exact G].
    rewrite E. cbn [h_done]. rewrite for_tag_app, for_tag_one. replace (t0 =? t)%nat with false by lia. apply app_nil_r. }
  induction ts as [|t0 ts IH]; intros s s' r d W F I E; cbn [fail_all] in E.
  - injection E as <-. split; [auto|intros []].
  - inversion F; subst. pose proof W as [W1 W2 W3 W4 W5 W6 W7].
    destruct (Nat.eq_dec t0 (q_tag r)) as [->|Nt].
    + destruct I as [I1 I2]. rewrite I1 in E. unfold complete in E.
      cbn [h_bufs h_pending h_inflight h_backend h_tr h_draining h_chan h_ops h_done] in E. rewrite I2 in E. cbn [bindr] in E.
      apply (Gone _ _ _ (q_tag r)) in E; [|cbn [h_inflight]; apply nth_error_set_nth_eq; lia].
      split; [intros C; exfalso; apply C; left; reflexivity|]. intros _. rewrite E. cbn [h_done].
      rewrite for_tag_app, for_tag_one, Nat.eqb_refl. reflexivity.
    + assert (Hin : In (q_tag r) (t0 :: ts) <-> In (q_tag r) ts) by (cbn; intuition congruence). rewrite Hin.
      destruct (nth_error (h_inflight s) t0) as [[x|]|] eqn:E0; try (eapply IH; eauto; fail).
      unfold complete in E. cbn [h_bufs h_pending h_inflight h_backend h_tr h_draining h_chan h_ops h_done] in E.
      destruct (nth_error (h_bufs s) t0) as [b|]; [|discriminate]. cbn [bindr] in E.
      apply (IH _ _ r d) in E; auto.
      * cbn [h_done] in E. rewrite for_tag_app, for_tag_one in E. replace (t0 =? q_tag r)%nat with false in E by lia.
        rewrite app_nil_r in E. exact E.
      * constructor; cbn [h_pending h_inflight h_backend h_bufs]; rewrite ?set_nth_length; auto.
        intros t r' E'. rewrite inflight_set in E' by lia. destruct (Nat.eqb_spec t0 t); [discriminate|auto].
      * destruct I. split; cbn [h_inflight h_bufs]; auto. rewrite nth_error_set_nth_neq by auto. auto.
Qed.

Lemma poll_all_issued : forall ps s s' r d, wf max n s -> Forall (fun p => N.of_nat (length (snd p)) <= max) ps ->
  issued r d s -> poll_all ps s = Ok s' ->
  (issued r d s' /\ for_tag (q_tag r) (h_done s') = for_tag (q_tag r) (h_done s)) \/
  (exists ok data b, In (q_tag r, ok, data) ps /\ inflight_n (q_tag r) s' = 0%nat /\
     for_tag (q_tag r) (h_done s') = for_tag (q_tag r) (h_done s) ++ [(q_tag r, reply r ok, b)] /\
     (match q_op r with OpRead => ok = true -> N.of_nat (length data) = q_bytes r ->
                                   b = data ++ skipn (N.to_nat (q_bytes r)) d
                      | _ => b = d end) /\
     (ok = false -> b = d)).
Proof.
  assert (Gone : forall ps s s' t, wf max n s -> Forall (fun p => N.of_nat (length (snd p)) <= max) ps ->
      nth_error (h_inflight s) t = Some None -> poll_all ps s = Ok s' ->
      for_tag t (h_done s') = for_tag t (h_done s) /\ inflight_n t s' = 0%nat).
  { induction ps as [|[[id ok] data] ps IH]; intros s s' t W F G E.
    - cbn in E. injection E as <-. unfold inflight_n. rewrite G. auto.
    - inversion F; subst. cbn [snd] in H1. destruct (poll_all_step id ok data ps s W H1) as [Ee W1]. rewrite Ee in E.
      apply (IH _ _ t W1 H2) in E.
      + destruct E as [-> ->]. split; [|reflexivity]. unfold poll1. destruct (nth_error (h_inflight s) id) as [[x|]|] eqn:Ei; cbn [h_done]; auto.
        rewrite for_tag_app, for_tag_one. destruct (Nat.eqb_spec id t); [congruence|]. apply app_nil_r.
      + unfold poll1. destruct (nth_error (h_inflight s) id) as [[x|]|] eqn:Ei; cbn [h_inflight]; auto.
        rewrite nth_error_set_nth_neq by congruence. auto. }
  induction ps as [|[[id ok] data] ps IH]; intros s s' r d W F I E.
  - cbn in E. injection E as <-. left. auto.
  - inversion F; subst. cbn [snd] in H1. destruct (poll_all_step id ok data ps s W H1) as [Ee W1]. rewrite Ee in E.
    destruct (Nat.eq_dec id (q_tag r)) as [->|Nt].
    + right. destruct I as [I1 I2]. exists ok, data.
      assert (Lt : (q_tag r < n)%nat) by (destruct W; rewrite <- wf_infl0; apply nth_error_Some; congruence).
      apply (Gone _ _ _ (q_tag r) W1 H2) in E.
      2:{ unfold poll1. rewrite I1. cbn [h_inflight]. apply nth_error_set_nth_eq. destruct W; lia. }
      destruct E as [E0 E1]. rewrite E0. unfold poll1. rewrite I1. cbn [h_done].
      eexists. split; [left; reflexivity|]. split; [exact E1|]. rewrite for_tag_app, for_tag_one, Nat.eqb_refl.
      split; [reflexivity|]. rewrite (nth_nth_error _ _ _ _ I2). unfold reply_buf.
      split.
      * destruct (q_op r); try (destruct ok; reflexivity). intros -> Hl.
        rewrite firstn_app. rewrite firstn_all2 by lia. replace (N.to_nat (q_bytes r) - length data)%nat with 0%nat by lia.
        rewrite firstn_O, app_nil_r. reflexivity.
      * intros ->. reflexivity.
    + assert (I' : issued r d (poll1 id ok data s)).
      { destruct I as [I1 I2]. unfold issued, poll1. destruct (nth_error (h_inflight s) id) as [[x|]|] eqn:Ei; cbn [h_inflight h_bufs]; auto.
        rewrite !nth_error_set_nth_neq by auto. auto. }
      assert (D' : for_tag (q_tag r) (h_done (poll1 id ok data s)) = for_tag (q_tag r) (h_done s)).
      { unfold poll1. destruct (nth_error (h_inflight s) id) as [[x|]|] eqn:Ei; cbn [h_done]; auto.
        rewrite for_tag_app, for_tag_one. replace (id =? q_tag r)%nat with false by lia. apply app_nil_r. }
      apply (IH _ _ r d W1 H2 I') in E. rewrite D' in E.
      destruct E as [E|(ok' & data' & b & Hin & E)]; [left; exact E|]. right. exists ok', data', b.
      split; [right; exact Hin|exact E].
Qed.

Lemma as_i32_small : forall b, b < 2 ^ 31 -> as_i32 b = Z.of_N b.
Proof.
  intros b H. unfold as_i32. change (2 ^ 31) with 2147483648 in H. change (2 ^ 32)%Z with 4294967296%Z. change (2 ^ 31)%Z with 2147483648%Z.
  rewrite Z.mod_small by lia. replace (Z.of_N b <? 2147483648)%Z with true by lia. reflexivity.
Qed.

Lemma reply_answers : forall busy oks ps r d ok data b, max < 2 ^ 31 -> q_bytes r <= max -> q_op r <> OpUnsupported ->
  In (q_tag r, ok, data) ps ->
  (match q_op r with OpRead => ok = true -> N.of_nat (length data) = q_bytes r ->
                                   b = data ++ skipn (N.to_nat (q_bytes r)) d
                   | _ => b = d end) ->
  (ok = false -> b = d) ->
  answers (EIter busy oks ps) r d (reply r ok) b.
Proof.
  intros busy oks ps r d ok data b Hm Hb Ho Hin Hd Hf. cbn [answers]. unfold reply. destruct ok.
  - right. exists data. split; [exact Hin|]. rewrite as_i32_small by lia. destruct (q_op r); auto.
  - left. split; [reflexivity|]. split; [auto|]. right. right. eauto.
Qed.

Lemma in_pending_count : forall r l, In r l -> (1 <= pending_n (q_tag r) l)%nat.
Proof.
  intros r l H. unfold pending_n.
  assert (Hf : In r (filter (fun r0 => (q_tag r0 =? q_tag r)%nat) l)) by (apply filter_In; split; [auto|apply Nat.eqb_refl]).
  destruct (filter _ l); [contradiction|cbn; lia].
Qed.

(** One step, seen by a request the handler holds. *)
Lemma answer_step : forall s e s' r d, max < 2 ^ 31 -> wf max n s -> one_each s -> driver_ok max n s e ->
  hstep max s e = Ok s' -> waiting r d s \/ issued r d s ->
  exists newops, ops_for (q_tag r) (h_ops s') = ops_for (q_tag r) (h_ops s) ++ newops /\
  ((for_tag (q_tag r) (h_done s') = for_tag (q_tag r) (h_done s) /\
    ((waiting r d s /\ waiting r d s' /\ newops = []) \/ (waiting r d s /\ issued r d s' /\ newops = forwarded r d) \/
     (issued r d s /\ issued r d s' /\ newops = []))) \/
   (exists rs b, for_tag (q_tag r) (h_done s') = for_tag (q_tag r) (h_done s) ++ [(q_tag r, rs, b)] /\
      answers e r d rs b /\ owned_n (q_tag r) s' = 0%nat /\
      newops = (if in_dec Nat.eq_dec (q_tag r) (map q_tag (h_pending s)) then forwarded r d else []))).
Proof.
  intros s e s' r d Hm W U D E T. destruct (hstep_ok s e W U D) as (s0 & E0 & W' & U' & Cnt).
  rewrite E in E0. injection E0 as <-.
  assert (Own : owned_n (q_tag r) s = 1%nat).
  { specialize (U (q_tag r)). unfold owned_n in *. destruct T as [[T _]|[T _]].
    - apply in_pending_count in T. lia.
    - unfold inflight_n in *. rewrite T in *. lia. }
  destruct e as [tgt tag dd fl st nr last|busy ok ps]; cbn [hstep driver_ok] in *.
  - exists []. rewrite app_nil_r. unfold handle in E. destruct tgt.
    { injection E as <-. split; [reflexivity|]. left. split; [reflexivity|]. destruct T; auto 6. }
    destruct D as [_ D]. destruct (D eq_refl) as (Dt & D0 & _).
    assert (Nt : tag <> q_tag r) by congruence.
    destruct (max <? nr * 512).
    + unfold complete in E. cbn [h_bufs h_pending h_inflight h_backend h_tr h_draining h_chan h_ops h_done] in E.
      destruct (nth_error (set_nth tag dd (h_bufs s)) tag); [|discriminate]. injection E as <-. split; [reflexivity|]. left.
      cbn [h_done]. rewrite for_tag_app, for_tag_one. replace (tag =? q_tag r)%nat with false by lia. rewrite app_nil_r.
      split; [reflexivity|]. unfold waiting, issued in *. cbn [h_pending h_inflight h_bufs].
      rewrite nth_error_set_nth_neq by auto. destruct T; auto 6.
    + injection E as <-. split; [reflexivity|]. left. split; [reflexivity|].
      unfold waiting, issued in *. cbn [h_pending h_inflight h_bufs]. rewrite nth_error_set_nth_neq by auto.
      destruct T as [[T1 T2]|T]; [left|right; right]; auto. split; [auto|]. split; [|auto]. split; [|auto].
      apply in_or_app. auto.
  - destruct D as [D1 D2]. unfold iteration in E.
    destruct (match h_pending s with [] => true | _ => false end && negb busy) eqn:Ec.
    { injection E as <-. exists []. rewrite app_nil_r. split; [reflexivity|]. left. split; [reflexivity|].
      unfold waiting, issued, stop_draining in *. cbn [h_pending h_inflight h_bufs]. destruct T; auto 6. }
    clear Ec.
    destruct (enqueue_all_ok (h_pending s) false s W (wf_pend _ _ _ W) U (fun x => x))
      as (s1 & q & Ee & W1 & P1 & Dr1 & B1 & N1 & L1).
    rewrite Ee in E. cbn [bindr] in E.
    assert (Fin : forall (newops0 : list chop), issued r d s1 -> q_op r <> OpUnsupported -> q_bytes r <= max ->
        for_tag (q_tag r) (h_done s1) = for_tag (q_tag r) (h_done s) ->
        ops_for (q_tag r) (h_ops s') = ops_for (q_tag r) (h_ops s1) /\
        ((for_tag (q_tag r) (h_done s') = for_tag (q_tag r) (h_done s) /\ issued r d s') \/
         (exists rs b, for_tag (q_tag r) (h_done s') = for_tag (q_tag r) (h_done s) ++ [(q_tag r, rs, b)] /\
            answers (EIter busy ok ps) r d rs b))).
    { intros _ I1 So Sb Dn. destruct (q && negb ok) eqn:Eq.
      - assert (Fs : Forall (fun t => (t < n)%nat) (seq 0 (length (h_inflight s1)))).
        { apply Forall_forall. intros t Hin. apply in_seq in Hin. rewrite (wf_infl _ _ _ W1) in Hin. lia. }
        destruct (fail_all_ok (seq 0 (length (h_inflight s1))) s1 W1 Fs) as (s2 & Ef & W2 & P2 & _ & _ & O2 & N2 & L2 & _).
        rewrite Ef in E. cbn [bindr] in E. injection E as <-.
        destruct (fail_all_issued _ _ _ r d W1 Fs I1 Ef) as [_ F2].
        cbn [stop_draining h_ops h_done]. rewrite O2. split; [reflexivity|]. right. exists UInval, d.
        rewrite F2, Dn.
        + split; [reflexivity|]. cbn [answers]. left. split; [reflexivity|]. split; [reflexivity|]. right. left.
          destruct ok; [rewrite andb_false_r in Eq; discriminate|reflexivity].
        + apply in_seq. split; [lia|]. destruct I1 as [I1 _]. cbn [plus]. apply nth_error_Some. congruence.
      - destruct (poll_all_ok ps s1 W1 D2) as (s2 & Ep & _ & _ & _ & O2 & _). rewrite Ep in E. injection E as <-.
        rewrite O2. split; [reflexivity|].
        destruct (poll_all_issued ps s1 s2 r d W1 D2 I1 Ep) as [[I2 Dn2]|(ok' & data & b & Hin & _ & Dn2 & Hb1 & Hb2)].
        + left. rewrite Dn2, Dn. auto.
        + right. exists (reply r ok'), b. rewrite Dn2, Dn. split; [reflexivity|]. eapply reply_answers; eauto. }
    assert (Own' : forall rs b, for_tag (q_tag r) (h_done s') = for_tag (q_tag r) (h_done s) ++ [(q_tag r, rs, b)] ->
              owned_n (q_tag r) s' = 0%nat).
    { intros rs b Hd. specialize (Cnt (q_tag r)). unfold completed_n in Cnt. rewrite Hd, app_length in Cnt.
      cbn [length handed_n filter] in Cnt. lia. }
    destruct T as [[T1 T2]|T].
    + assert (Hr := wf_pend _ _ _ W). rewrite Forall_forall in Hr. destruct (Hr _ T1) as [Hr1 Hr2].
      destruct (enqueue_all_waiting _ _ _ _ _ r d W (wf_pend _ _ _ W) U T1 T2 Ee) as (O1 & _ & [(So & I1 & Dn)|(So & I1 & Dn)]).
      * assert (So' : q_op r <> OpUnsupported) by (unfold supported in So; destruct (q_op r); congruence).
        destruct (Fin [] I1 So' Hr2 Dn) as [O2 [[Dn2 I2]|(rs & b & Dn2 & A)]]; exists (forwarded r d); (split; [rewrite O2, O1; reflexivity|]).
        -- left. split; [exact Dn2|]. right. left. split; [split; auto|auto].
        -- right. exists rs, b. split; [exact Dn2|]. split; [exact A|]. split; [eauto|].
           destruct (in_dec Nat.eq_dec (q_tag r) (map q_tag (h_pending s))) as [|C]; [reflexivity|].
           exfalso. apply C. apply in_map. exact T1.
      * assert (Fo : forwarded r d = []) by (unfold supported, forwarded in *; destruct (q_op r); congruence).
        assert (So' : q_op r = OpUnsupported) by (unfold supported in So; destruct (q_op r); congruence).
        assert (I0 : inflight_n (q_tag r) s = 0%nat).
        { unfold owned_n in Own. apply in_pending_count in T1. lia. }
        assert (Hl : (q_tag r < length (h_inflight s))%nat) by (destruct W; lia).
        assert (In1 : nth_error (h_inflight s1) (q_tag r) = Some None).
        { unfold inflight_n in I0. rewrite I1. destruct (nth_error (h_inflight s) (q_tag r)) as [[x|]|] eqn:Ex; try lia; auto.
          apply nth_error_None in Ex. lia. }
        assert (Rest : for_tag (q_tag r) (h_done s') = for_tag (q_tag r) (h_done s1) /\ h_ops s' = h_ops s1).
        { assert (Cn : length (for_tag (q_tag r) (h_done s')) = length (for_tag (q_tag r) (h_done s1)) /\ h_ops s' = h_ops s1 /\
             exists x, for_tag (q_tag r) (h_done s') = for_tag (q_tag r) (h_done s1) ++ x).
          { destruct (q && negb ok).
            - assert (Fs : Forall (fun t => (t < n)%nat) (seq 0 (length (h_inflight s1)))).
              { apply Forall_forall. intros t Hin. apply in_seq in Hin. rewrite (wf_infl _ _ _ W1) in Hin. lia. }
              destruct (fail_all_ok (seq 0 (length (h_inflight s1))) s1 W1 Fs) as (s2 & Ef & W2 & P2 & _ & _ & O2 & N2 & L2 & _).
              rewrite Ef in E. cbn [bindr] in E. injection E as <-. specialize (N2 (q_tag r)). specialize (L2 (q_tag r)).
              cbn [stop_draining h_done h_ops]. unfold completed_n in N2. unfold inflight_n in *. rewrite In1 in *.
              split; [lia|]. split; [exact O2|].
              clear - Ef. revert Ef. generalize (seq 0 (length (h_inflight s1))). intros l. revert s1 s2. induction l as [|t0 ts IH]; intros s1 s2 Ef; cbn [fail_all] in Ef.
              { injection Ef as <-. exists []. rewrite app_nil_r. reflexivity. }
              destruct (nth_error (h_inflight s1) t0) as [[x|]|]; try (eapply IH; eauto; fail).
              unfold complete in Ef. cbn [h_bufs h_pending h_inflight h_backend h_tr h_draining h_chan h_ops h_done] in Ef.
              destruct (nth_error (h_bufs s1) t0); [|discriminate]. cbn [bindr] in Ef. apply IH in Ef as [x' Ef].
              cbn [h_done] in Ef. rewrite for_tag_app, <- app_assoc in Ef. eauto.
            - destruct (poll_all_ok ps s1 W1 D2) as (s2 & Ep & _ & _ & _ & O2 & N2 & L2). rewrite Ep in E. injection E as <-.
              specialize (N2 (q_tag r)). specialize (L2 (q_tag r)). unfold completed_n in N2. unfold inflight_n in *. rewrite In1 in *.
              split; [lia|]. split; [exact O2|].
              clear - Ep W1 D2. revert s1 s2 W1 Ep. induction ps as [|[[id ok'] data] ps IH]; intros s1 s2 W1 Ep.
              { cbn in Ep. injection Ep as <-. exists []. rewrite app_nil_r. reflexivity. }
              inversion D2; subst. cbn [snd] in H1. destruct (poll_all_step id ok' data ps s1 W1 H1) as [Ee W2]. rewrite Ee in Ep.
              apply (IH H2 _ _ W2) in Ep as [x' Ep]. rewrite Ep. unfold poll1.
              destruct (nth_error (h_inflight s1) id) as [[y|]|]; cbn [h_done]; eauto.
              rewrite for_tag_app, <- app_assoc. eauto. }
          destruct Cn as (C1 & C2 & x & C3). split; [|exact C2]. rewrite C3 in *. rewrite app_length in C1.
          destruct x; [apply app_nil_r|cbn in C1; lia]. }
        destruct Rest as [R1 R2]. exists []. rewrite R2, O1, Fo. split; [reflexivity|]. right. exists UInval, d.
        rewrite R1, Dn. split; [reflexivity|].
        split; [cbn [answers]; left; auto|]. split; [eapply Own'; rewrite R1, Dn; reflexivity|].
        destruct (in_dec Nat.eq_dec (q_tag r) (map q_tag (h_pending s))); auto.
    + assert (P0 : pending_n (q_tag r) (h_pending s) = 0%nat).
      { unfold owned_n, inflight_n in Own. destruct T as [T _]. rewrite T in Own. lia. }
      destruct (enqueue_all_issued _ _ _ _ _ (q_tag r) W (wf_pend _ _ _ W) P0 Ee) as (A1 & A2 & A3 & A4).
      assert (I1 : issued r d s1) by (destruct T; split; congruence).
      destruct (wf_req _ _ _ W _ _ (proj1 T)) as (_ & Sb & So).
      destruct (Fin [] I1 So Sb A3) as [O2 [[Dn2 I2]|(rs & b & Dn2 & A)]]; exists []; rewrite app_nil_r; (split; [rewrite O2, A4; reflexivity|]).
      * left. split; [exact Dn2|]. auto.
      * right. exists rs, b. split; [exact Dn2|]. split; [exact A|]. split; [eauto|].
        destruct (in_dec Nat.eq_dec (q_tag r) (map q_tag (h_pending s))) as [Hin|]; [|reflexivity].
        exfalso. apply in_map_iff in Hin as (x & Ex & Hin). apply in_pending_count in Hin. rewrite Ex in Hin. lia.
Qed.
End Fix.
