(** The guest's view of a running backend is the view its device gives, under the
    guest's own names for the requests. *)
From Coq Require Import List NArith ZArith Arith Bool Lia ZifyBool ZifyNat ZifyN Permutation.
From Verif Require Import Base BaseFacts DiskSpec TraceFacts VhostModel VhostSpec VhostProofs GuestModel GuestSpec.
Import ListNotations.
Local Open Scope N_scope.
Ltac Zify.zify_post_hook ::= Z.div_mod_to_equations.

(** ** Sectors *)
Lemma concat_length512 : forall v : list sector, Forall (fun s => N.of_nat (length s) = 512) v ->
  N.of_nat (length (concat v)) = 512 * N.of_nat (length v).
Proof.
  induction 1 as [|s v Hs F IH]; [reflexivity|]. cbn [concat length]. rewrite app_length. lia.
Qed.

Lemma app_split : forall {A} (a c b d : list A), length a = length c -> a ++ b = c ++ d -> a = c /\ b = d.
Proof.
  intros A. induction a as [|x a IH]; intros [|y c] b d L E; cbn [length app] in *; try discriminate; auto.
  injection E as -> E. destruct (IH c b d) as [-> ->]; auto.
Qed.

Lemma is_sectors_unique : forall l v1 v2, is_sectors l v1 -> is_sectors l v2 -> v1 = v2.
Proof.
  intros l v1. revert l. induction v1 as [|s v1 IH]; intros l v2 [E1 F1] [E2 F2].
  - cbn [concat] in E1. subst l. destruct v2 as [|s2 v2]; [reflexivity|].
    cbn [concat] in E2. apply app_eq_nil in E2 as [-> _]. inversion F2. discriminate.
  - destruct v2 as [|s2 v2].
    + cbn [concat] in *. subst l. symmetry in E2. apply app_eq_nil in E2 as [-> _]. inversion F1. discriminate.
    + cbn [concat] in *. inversion F1; inversion F2; subst.
      assert (L : length s2 = length s) by lia.
      destruct (app_split _ _ _ _ L E2) as [A B].
      subst s2. f_equal. eapply IH; split; eauto.
Qed.

Lemma split_sectors_ok : forall k l, N.of_nat (length l) = 512 * N.of_nat k -> is_sectors l (split_sectors k l).
Proof.
  induction k as [|k IH]; intros l H; cbn [split_sectors].
  - destruct l; [split; [reflexivity|constructor]|cbn [length] in H; lia].
  - change (N.to_nat SECTOR) with (N.to_nat 512). destruct (IH (skipn (N.to_nat 512) l)) as [E F].
    { rewrite skipn_length. lia. }
    split.
    + cbn [concat]. rewrite E. apply firstn_skipn.
    + constructor; [rewrite firstn_length; lia|exact F].
Qed.

Lemma seg_contents_length : forall m l, N.of_nat (length (seg_contents m l)) = total_len l.
Proof.
  induction l as [|[a n] l IH]; [reflexivity|].
  change (seg_contents m ((a, n) :: l)) with (map m (range a (N.to_nat n)) ++ seg_contents m l).
  change (total_len ((a, n) :: l)) with (n + total_len l).
  rewrite app_length, map_length, range_length. lia.
Qed.

(** ** Requests *)
Lemma asks_unique : forall m rq r1 r2, asks m rq r1 -> asks m rq r2 -> r1 = r2.
Proof.
  intros * A B. destruct A, B; try congruence.
  - f_equal. lia.
  - f_equal. eapply is_sectors_unique; eauto.
Qed.

Lemma finds_unique : forall m rq o1 d1 o2 d2, finds m rq o1 d1 -> finds m rq o2 d2 -> o1 = o2 /\ d1 = d2.
Proof.
  intros * A B. destruct A, B; try congruence; auto. split; auto. f_equal. eapply is_sectors_unique; eauto.
Qed.

Lemma bytes_of_some : forall v, bytes_of (map Some v) = concat v.
Proof. induction v as [|s v IH]; [reflexivity|]. cbn [map bytes_of flat_map concat]. unfold bytes_of in IH. rewrite IH. reflexivity. Qed.

(** The request is still what the driver asked for, and may be carried out. *)
Definition readable (valid : N -> bool) (rq : request) : Prop :=
  segs_valid valid (rq_data rq) /\ segs_disjoint (rq_data rq) /\ ~ in_segs (rq_status rq) (rq_data rq).

Definition kind_ok (valid : N -> bool) (size : nat) (rq : request) (k : dkind sector) : Prop :=
  match k with
  | DRead off len got => rq_type rq = TIn /\ total_len (rq_data rq) = 512 * N.of_nat len /\
      (off + len <= size)%nat /\ readable valid rq /\
      forall i v, got i = Some v -> N.of_nat (length v) = 512
  | DWrite _ data _ => rq_type rq = TOut /\ Forall (fun s => N.of_nat (length s) = 512) data
  | DFlush _ => rq_type rq = TFlush
  end.

Record linked (valid : N -> bool) (qsize : N) (size : nat) (g : gst) (d d' : disk sector) (p : pending)
  (id : nat) (k : dkind sector) (sl : slot) : Prop := {
  l_op : d_ops d (p_serial p) = Some (mk_dop (p_queue p) id k);
  l_op' : d_ops d' (p_serial p) = Some (mk_dop (p_queue p) (N.to_nat (p_head p)) k);
  l_used : d_used d (p_serial p) = true;
  l_slot : nth_error (v_slots (g_queue g (p_queue p))) id = Some sl;
  l_out : In id (v_out (g_queue g (p_queue p)));
  l_chain : sl_chain sl = Some (p_head p);
  l_type : sl_type sl = rq_type (p_rq p);
  l_data : sl_data sl = rq_data (p_rq p);
  l_status : sl_status sl = rq_status (p_rq p);
  l_len : rq_type (p_rq p) = TIn -> sl_reqlen sl = total_len (rq_data (p_rq p));
  l_kind : kind_ok valid size (p_rq p) k;
  l_head : p_head p < qsize }.

Definition key (p : pending) : nat * N := (p_queue p, p_head p).

Record Inv (valid : N -> bool) (qsize : N) (size : nat) (g : gst) (P : list pending) (d d' : disk sector) : Prop := {
  i_vinv : forall q, vinv valid (g_queue g q);
  i_small : forall q, small_slots (g_queue g q);
  i_used : d_used d' = d_used d;
  i_hist : d_hist d' = d_hist d;
  i_done : d_done d' = d_done d;
  i_linked : forall p, In p P -> exists id k sl, linked valid qsize size g d d' p id k sl;
  i_ops : forall n, (d_ops d n = None /\ d_ops d' n = None) \/ exists p, In p P /\ p_serial p = n;
  i_keys : NoDup (map key P);
  i_512 : forall x e, (x < size)%nat -> In e (d_hist d x) -> N.of_nat (length (snd e)) = 512 }.

Section Sim.
Variable valid : N -> bool.
Variable qsize : N.
Variable did : list byte.
Variable nslots : nat.
Variable bufsize : N.
Variable size : nat.
Notation linked := (linked valid qsize size).
Notation Inv := (Inv valid qsize size).

Lemma key_inj : forall P p1 p2, NoDup (map key P) -> In p1 P -> In p2 P -> key p1 = key p2 -> p1 = p2.
Proof.
  induction P as [|p P IH]; intros p1 p2 N H1 H2 E; [destruct H1|].
  cbn [map] in N. inversion N as [|? ? Hn N']; subst.
  destruct H1 as [<-|H1], H2 as [<-|H2]; auto.
  - exfalso. apply Hn. rewrite E. apply in_map, H2.
  - exfalso. apply Hn. rewrite <- E. apply in_map, H1.
Qed.

Lemma serial_inj : forall g P d d' p1 p2, Inv g P d d' -> In p1 P -> In p2 P ->
  p_serial p1 = p_serial p2 -> p1 = p2.
Proof.
  intros * I H1 H2 E. eapply key_inj; eauto; [apply I|].
  destruct (i_linked _ _ _ _ _ _ _ I _ H1) as (id1 & k1 & sl1 & L1).
  destruct (i_linked _ _ _ _ _ _ _ I _ H2) as (id2 & k2 & sl2 & L2).
  pose proof (l_op' _ _ _ _ _ _ _ _ _ _ L1) as A. pose proof (l_op' _ _ _ _ _ _ _ _ _ _ L2) as B.
  rewrite E in A. rewrite A in B. injection B as B1 B2 _. unfold key. f_equal; [auto|lia].
Qed.

(** The kind of one request changes, and with it the medium. *)
Lemma inv_kind : forall g P d d' p id k sl k2 hist,
  Inv g P d d' -> In p P -> linked g d d' p id k sl -> kind_ok valid size (p_rq p) k2 ->
  (forall x e, (x < size)%nat -> In e (hist x) -> N.of_nat (length (snd e)) = 512) ->
  Inv g P
    (mk_disk (upd (d_ops d) (p_serial p) (Some (mk_dop (p_queue p) id k2))) (d_used d) hist (d_done d))
    (mk_disk (upd (d_ops d') (p_serial p) (Some (mk_dop (p_queue p) (N.to_nat (p_head p)) k2))) (d_used d') hist (d_done d')).
Proof.
  intros * I Hp L Hk Hh. constructor; cbn [d_ops d_used d_hist d_done]; try apply I; auto.
  - intros p2 Hp2. destruct (Nat.eq_dec (p_serial p2) (p_serial p)) as [E|E].
    + assert (p2 = p) as -> by (eapply serial_inj; eauto).
      exists id, k2, sl. constructor; cbn [d_ops d_used]; try apply L; auto; unfold upd; rewrite Nat.eqb_refl; reflexivity.
    + destruct (i_linked _ _ _ _ _ _ _ I _ Hp2) as (id2 & k3 & sl2 & L2).
      exists id2, k3, sl2. constructor; cbn [d_ops d_used]; try apply L2; unfold upd;
        (destruct (Nat.eqb_spec (p_serial p2) (p_serial p)); [contradiction|apply L2]).
  - intros n. unfold upd. destruct (Nat.eqb_spec n (p_serial p)); [right; eauto|].
    destruct (i_ops _ _ _ _ _ _ _ I n) as [A|A]; auto.
Qed.

Lemma inv_at : forall g P d d' n o, Inv g P d d' -> d_ops d n = Some o ->
  exists p id k sl, In p P /\ p_serial p = n /\ linked g d d' p id k sl /\ o = mk_dop (p_queue p) id k /\
    d_ops d' n = Some (mk_dop (p_queue p) (N.to_nat (p_head p)) k).
Proof.
  intros * I H. destruct (i_ops _ _ _ _ _ _ _ I n) as [[A _]|(p & Hp & <-)]; [congruence|].
  destruct (i_linked _ _ _ _ _ _ _ I _ Hp) as (id & k & sl & L).
  exists p, id, k, sl. pose proof (l_op _ _ _ _ _ _ _ _ _ _ L) as A. rewrite H in A. injection A as ->.
  repeat split; auto; apply L.
Qed.

Lemma cur_in : forall {A} (l : list (nat * A)) v, cur l = Some v -> exists e, In e l /\ snd e = v.
Proof. intros A [|e l] v H; [discriminate|]. injection H as <-. exists e. split; [left|]; reflexivity. Qed.

(** ** Silent steps of the device *)
Lemma sim_silent : forall g P d d' e d1, Inv g P d d' -> dstep size d e = Some (d1, []) ->
  exists d1', dstep size d' e = Some (d1', []) /\ Inv g P d1 d1'.
Proof.
  intros * I H. destruct e as [n c id r|n i|n i|n ok|sv]; cbn [dstep] in *.
  - destruct (d_used d n); discriminate.
  - destruct (d_ops d n) as [o|] eqn:Eo; [|discriminate].
    destruct (inv_at _ _ _ _ _ _ I Eo) as (p & id & k & sl & Hp & <- & L & -> & Eo').
    rewrite Eo'. destruct k as [| off data ap|]; try discriminate.
    destruct (nth_error data i) as [v|] eqn:Ei; [|discriminate].
    destruct ((off + i <? size)%nat && negb (ap i)) eqn:Ec; [|discriminate]. injection H as <-.
    eexists. split; [reflexivity|]. rewrite (i_hist _ _ _ _ _ _ _ I).
    destruct (l_kind _ _ _ _ _ _ _ _ _ _ L) as [K1 K2].
    eapply inv_kind; eauto; [split; auto|].
    intros x he Hx Hin. unfold upd in Hin. destruct (Nat.eqb_spec x (off + i)).
    + destruct Hin as [<-|Hin]; [|subst x; eapply i_512; eauto]. cbn [snd].
      rewrite Forall_forall in K2. apply K2. eapply nth_error_In; eauto.
    + eapply i_512; eauto.
  - destruct (d_ops d n) as [o|] eqn:Eo; [|discriminate].
    destruct (inv_at _ _ _ _ _ _ I Eo) as (p & id & k & sl & Hp & <- & L & -> & Eo').
    rewrite Eo'. destruct k as [off len got| |]; try discriminate.
    destruct ((off + i <? size)%nat && (i <? len)%nat) eqn:Ec; [|discriminate]. injection H as <-.
    eexists. split; [reflexivity|]. unfold set_kind. cbn [d_ch d_id]. rewrite (i_hist _ _ _ _ _ _ _ I).
    destruct (l_kind _ _ _ _ _ _ _ _ _ _ L) as (K1 & K2 & K3 & K4 & K5).
    eapply inv_kind; eauto; [|intros; eapply i_512; eauto].
    repeat (split; auto). intros j v Hj. unfold upd in Hj. destruct (Nat.eqb_spec j i); [|eauto].
    apply cur_in in Hj as (he & He & <-). eapply i_512; eauto. lia.
  - exfalso. destruct (d_ops d n) as [[c id k]|]; [|discriminate]. destruct ok; [|discriminate].
    destruct k; repeat match type of H with context [if ?b then _ else _] => destruct b end; discriminate.
  - discriminate.
Qed.

Lemma sim_silents : forall es g P d d' d1, Inv g P d d' -> drun size d es = Some (d1, []) ->
  exists d1', drun size d' es = Some (d1', []) /\ Inv g P d1 d1'.
Proof.
  induction es as [|e es IH]; intros * I H; cbn [drun] in H |- *.
  - injection H as <-. eauto.
  - destruct (dstep size d e) as [[d2 t2]|] eqn:E1; [|discriminate].
    destruct (drun size d2 es) as [[d3 t3]|] eqn:E2; [|discriminate]. injection H as <- H.
    apply app_eq_nil in H as [-> ->]. destruct (sim_silent _ _ _ _ _ _ I E1) as (d2' & S1 & I1).
    destruct (IH _ _ _ _ _ I1 E2) as (d3' & S2 & I2). rewrite S1, S2. eauto.
Qed.

(** ** Events that do not concern the device *)
Lemma inv_other : forall g P d d' g', Inv g P d d' ->
  (forall q, vinv valid (g_queue g' q)) -> (forall q, small_slots (g_queue g' q)) ->
  (forall q id, In id (v_out (g_queue g q)) -> In id (v_out (g_queue g' q)) /\
     nth_error (v_slots (g_queue g' q)) id = nth_error (v_slots (g_queue g q)) id) ->
  Inv g' P d d'.
Proof.
  intros * I Hv Hs Hk. constructor; try apply I; auto.
  intros p Hp. destruct (i_linked _ _ _ _ _ _ _ I _ Hp) as (id & k & sl & L). exists id, k, sl.
  destruct (Hk _ _ (l_out _ _ _ _ _ _ _ _ _ _ L)) as [A B].
  constructor; try apply L; auto. rewrite B. apply L.
Qed.

Lemma put_queue : forall g q s q2, g_queue (put g q s) q2 = if (q2 =? q)%nat then s else g_queue g q2.
Proof. reflexivity. Qed.

(** One thread takes a step that is not the completion of a request; what it worked
    on stays. *)
Lemma inv_put : forall g P d d' q s', Inv g P d d' -> vinv valid s' -> small_slots s' ->
  (forall id, In id (v_out (g_queue g q)) -> In id (v_out s') /\
     nth_error (v_slots s') id = nth_error (v_slots (g_queue g q)) id) ->
  Inv (put g q s') P d d'.
Proof.
  intros * I Hv Hs Hk. eapply inv_other; eauto.
  - intros q2. rewrite put_queue. destruct (q2 =? q)%nat; auto. apply I.
  - intros q2. rewrite put_queue. destruct (q2 =? q)%nat; auto. apply I.
  - intros q2 id. rewrite put_queue. destruct (Nat.eqb_spec q2 q) as [->|]; auto.
Qed.

(** ** Taking a chain *)
Lemma pop_small : forall g P d d' q c s' rq head datas st, Inv g P d d' ->
  block_request valid (g_mem g) c rq head datas st -> total_len (rq_data rq) < 2 ^ 32 ->
  (rq_type rq = TGetId -> rq_data rq <> []) ->
  step valid qsize did (at_queue g q) (EPop c) = Ok s' -> vinv valid s' /\ small_slots s'.
Proof.
  intros * I B Hl Hg H.
  assert (W : within_limits valid (at_queue g q) (EPop c)).
  { intros rq2 E. assert (E2 : parse valid (g_mem g) c = Ok rq) by (apply parse_ok; eauto).
    cbn [at_queue set_mem v_mem] in E. rewrite E2 in E. injection E as <-. auto. }
  split.
  - eapply step_inv; eauto; [apply (i_vinv _ _ _ _ _ _ _ I q)|exact Logic.I].
  - eapply step_small; eauto; [apply (i_vinv _ _ _ _ _ _ _ I q)|apply (i_small _ _ _ _ _ _ _ I q)|exact Logic.I].
Qed.

(** An I/O request is handed over, as what it asks for. *)
Lemma pop_io : forall s c s' rq head datas st,
  vinv valid s -> block_request valid (v_mem s) c rq head datas st -> total_len (rq_data rq) < 2 ^ 32 ->
  (rq_type rq = TIn \/ rq_type rq = TOut -> segs_valid valid (rq_data rq) /\ total_len (rq_data rq) mod 512 = 0) ->
  is_io rq -> process_chain valid qsize did c s = Ok s' ->
  exists o, handed_over valid (c_head c) rq s s' o /\ asks (v_mem s) rq (req_of o) /\
    match o with
    | VRead _ _ _ => rq_type rq = TIn | VWrite _ _ _ _ => rq_type rq = TOut | VFlush _ => rq_type rq = TFlush
    end.
Proof.
  intros * Hi B Hl Hd Hio H.
  assert (Ep : parse valid (v_mem s) c = Ok rq) by (apply parse_ok; eauto).
  assert (exists o, v_ops s' = v_ops s ++ [o]) as (o & Ho).
  { pose proof (parse_status_valid _ _ _ _ Ep) as Hv.
    unfold process_chain in H. rewrite Ep in H. destruct Hio as [T|[T|T]]; rewrite T in H.
    - destruct (process_read_effect _ _ _ _ _ _ Hi Hv T H) as [[F _]|(_ & id & F)].
      + exfalso. rewrite request_len_total in F by lia. destruct Hd as [_ Hd]; auto. 
      + eexists. apply F.
    - unfold process_write in H. rewrite request_len_total in H by lia.
      destruct Hd as [Hsv Hm]; auto. change SECTOR with 512 in H. cbn [N.add] in H. rewrite Hm in H. cbn [N.eqb negb] in H.
      destruct (get_request_slot _ _ _ _) as [id sls].
      destruct (gather valid (v_mem s) _ 0 true (rq_data rq)) as [[b ok]| |] eqn:Eg; cbn [bindr] in H; try discriminate.
      assert (ok = true) as -> by (apply (gather_flag _ _ _ _ _ _ _ _ Eg); auto).
      injection H as <-. eexists. reflexivity.
    - destruct (process_flush_effect _ _ _ _ _ Hi Hv T H) as (id & F). eexists. apply F. }
  destruct (issued_by _ _ _ _ _ _ _ Hi H Ho) as (rq2 & Ep2 & Hh & _ & M).
  rewrite Ep in Ep2. injection Ep2 as <-. exists o. split; [exact Hh|].
  destruct o as [sec cnt id|sec cnt id data|id]; cbn [req_of].
  - destruct M as (T & -> & L). rewrite request_len_total in L by lia. split; auto.
    apply asks_read; auto.
  - destruct M as (T & -> & L & Hsv & Hdat). rewrite request_len_total in L by lia. split; auto.
    apply asks_write; auto. rewrite Hdat by exact Hl. apply split_sectors_ok. rewrite seg_contents_length.
    unfold SECTOR in L. lia.
  - split; auto. apply asks_flush. exact M.
Qed.

(** The serial of a pending request has been used. *)
Lemma fresh_serial : forall g P d d' p n, Inv g P d d' -> In p P -> d_used d n = false -> p_serial p <> n.
Proof.
  intros * I Hp Hn E. destruct (i_linked _ _ _ _ _ _ _ I _ Hp) as (id & k & sl & L).
  pose proof (l_used _ _ _ _ _ _ _ _ _ _ L) as U. rewrite E in U. congruence.
Qed.

Lemma inv_issue : forall g P d d' q c n s' rq head datas st o,
  Inv g P d d' -> driver_ok valid qsize size g P (GPop q c n) ->
  block_request valid (g_mem g) c rq head datas st ->
  vinv valid s' -> small_slots s' ->
  handed_over valid (c_head c) rq (at_queue g q) s' o ->
  asks (g_mem g) rq (req_of o) ->
  match o with
  | VRead _ _ _ => rq_type rq = TIn | VWrite _ _ _ _ => rq_type rq = TOut | VFlush _ => rq_type rq = TFlush
  end ->
  d_used d n = false ->
  Inv (put g q s') (mk_pending q (c_head c) n rq :: P)
    (dissue n q (vop_id o) (req_of o) d) (dissue n q (N.to_nat (c_head c)) (req_of o) d').
Proof.
  intros * I (Hq & Hnew & rq0 & head0 & datas0 & st0 & B0 & Hl & _ & Hio & Hin) B Hv Hs Hh A T Hn.
  assert (rq0 = rq) as ->.
  { assert (E1 : parse valid (g_mem g) c = Ok rq) by (apply parse_ok; eauto).
    assert (E2 : parse valid (g_mem g) c = Ok rq0) by (apply parse_ok; eauto). congruence. }
  assert (KO : kind_ok valid size rq (start_kind d (req_of o))).
  { destruct o as [sec cnt id|sec cnt id data|id]; cbn [req_of start_kind kind_ok] in *.
    - destruct (Hin T) as [? ?]. destruct Hio as (? & ? & ?); auto.
      inversion A; subst. assert (len = cnt) by lia. subst len. 
      split; auto. split; [lia|]. split; [lia|]. split; [repeat split; auto|]. discriminate.
    - inversion A as [|v ? S E|]; subst. split; auto. destruct S as [_ S]. exact S.
    - exact T. }
  assert (SK : start_kind d' (req_of o) = start_kind d (req_of o)).
  { destruct o; cbn [req_of start_kind]; auto. rewrite (i_done _ _ _ _ _ _ _ I). reflexivity. }
  constructor; unfold dissue; cbn [d_ops d_used d_hist d_done].
  - intros q2. rewrite put_queue. destruct (q2 =? q)%nat; auto. apply I.
  - intros q2. rewrite put_queue. destruct (q2 =? q)%nat; auto. apply I.
  - rewrite (i_used _ _ _ _ _ _ _ I). reflexivity.
  - apply I.
  - apply I.
  - intros p [<-|Hp].
    + destruct (ho_slot _ _ _ _ _ _ Hh) as (sl & S1 & S2 & S3 & S4 & S5 & S6).
      exists (vop_id o), (start_kind d (req_of o)), sl.
      constructor; cbn [d_ops d_used p_serial p_queue p_head p_rq]; unfold upd; rewrite ?Nat.eqb_refl; auto.
      * rewrite SK. reflexivity.
      * rewrite put_queue, Nat.eqb_refl. exact S1.
      * rewrite put_queue, Nat.eqb_refl, (ho_out _ _ _ _ _ _ Hh). apply in_or_app. right. left. reflexivity.
      * intros TI. rewrite S6. destruct o; try congruence; rewrite request_len_total by lia; lia.
    + pose proof (fresh_serial _ _ _ _ _ _ I Hp Hn) as Ne.
      destruct (i_linked _ _ _ _ _ _ _ I _ Hp) as (id & k & sl & L). exists id, k, sl.
      constructor; cbn [d_ops d_used]; try apply L; unfold upd;
        try (destruct (Nat.eqb_spec (p_serial p) n); [contradiction|apply L]).
      * rewrite put_queue. destruct (Nat.eqb_spec (p_queue p) q) as [E|]; [|apply L].
        rewrite (ho_keep _ _ _ _ _ _ Hh); [|cbn [at_queue set_mem v_out]; rewrite <- E; apply L].
        cbn [at_queue set_mem v_slots]. rewrite <- E. apply L.
      * rewrite put_queue. destruct (Nat.eqb_spec (p_queue p) q) as [E|]; [|apply L].
        rewrite (ho_out _ _ _ _ _ _ Hh). apply in_or_app. left. cbn [at_queue set_mem v_out]. rewrite <- E. apply L.
  - intros m. unfold upd. destruct (Nat.eqb_spec m n) as [->|Ne].
    + right. exists (mk_pending q (c_head c) n rq). split; [left|]; reflexivity.
    + destruct (i_ops _ _ _ _ _ _ _ I m) as [X|(p & Hp & E)]; auto. right. exists p. split; [right|]; auto.
  - cbn [map]. constructor; [|apply I]. intros F. apply in_map_iff in F as ([q2 h2 n2 rq2] & E & Hp).
    unfold key in E. cbn [p_queue p_head] in E. injection E as -> ->. eapply Hnew; eauto.
  - apply I.
Qed.

(** ** A completion *)
Lemma nodup_mid : forall (P1 P2 : list pending) p, NoDup (map key (P1 ++ p :: P2)) ->
  NoDup (map key (P1 ++ P2)) /\ forall p2, In p2 (P1 ++ P2) -> key p2 <> key p.
Proof.
  intros * N. rewrite map_app in N. cbn [map] in N. apply NoDup_remove in N as [N1 N2].
  rewrite <- map_app in *. split; auto. intros p2 H E. apply N2. rewrite <- E. apply in_map, H.
Qed.

Lemma inv_finish : forall g P1 P2 p d d' id k sl s' hist dn,
  Inv g (P1 ++ p :: P2) d d' -> linked g d d' p id k sl ->
  completed valid qsize id sl (at_queue g (p_queue p)) s' -> small_slots s' ->
  (forall x e, (x < size)%nat -> In e (hist x) -> N.of_nat (length (snd e)) = 512) ->
  Inv (put g (p_queue p) s') (P1 ++ P2)
    (mk_disk (upd (d_ops d) (p_serial p) None) (d_used d) hist dn)
    (mk_disk (upd (d_ops d') (p_serial p) None) (d_used d') hist dn).
Proof.
  intros * I L C Hs Hh.
  assert (Hin : forall p2, In p2 (P1 ++ P2) -> In p2 (P1 ++ p :: P2)).
  { intros p2 H. apply in_app_iff in H as [H|H]; apply in_or_app; [left|right; right]; auto. }
  assert (Hp : In p (P1 ++ p :: P2)) by (apply in_or_app; right; left; reflexivity).
  destruct (nodup_mid _ _ _ (i_keys _ _ _ _ _ _ _ I)) as [Hk Hne].
  constructor; cbn [d_ops d_used d_hist d_done]; auto.
  - intros q2. rewrite put_queue. destruct (q2 =? p_queue p)%nat; [apply C|apply I].
  - intros q2. rewrite put_queue. destruct (q2 =? p_queue p)%nat; [exact Hs|apply I].
  - apply I.
  - intros p2 H2. specialize (Hne _ H2). destruct (i_linked _ _ _ _ _ _ _ I _ (Hin _ H2)) as (id2 & k2 & sl2 & L2).
    assert (Ns : p_serial p2 <> p_serial p).
    { intros E. apply Hne. f_equal. eapply serial_inj; eauto. }
    assert (Nid : p_queue p2 = p_queue p -> id2 <> id).
    { intros Eq ->. apply Hne. unfold key. rewrite Eq. f_equal.
      pose proof (l_slot _ _ _ _ _ _ _ _ _ _ L) as A. pose proof (l_slot _ _ _ _ _ _ _ _ _ _ L2) as A2. rewrite Eq in A2.
      rewrite A in A2. injection A2 as <-.
      pose proof (l_chain _ _ _ _ _ _ _ _ _ _ L) as X. rewrite (l_chain _ _ _ _ _ _ _ _ _ _ L2) in X. congruence. }
    exists id2, k2, sl2. constructor; cbn [d_ops d_used]; try apply L2; unfold upd;
      try (destruct (Nat.eqb_spec (p_serial p2) (p_serial p)); [contradiction|apply L2]).
    + rewrite put_queue. destruct (Nat.eqb_spec (p_queue p2) (p_queue p)) as [E|]; [|apply L2].
      rewrite (co_keep _ _ _ _ _ _ C) by auto. cbn [at_queue set_mem v_slots]. rewrite <- E. apply L2.
    + rewrite put_queue. destruct (Nat.eqb_spec (p_queue p2) (p_queue p)) as [E|]; [|apply L2].
      rewrite (co_out _ _ _ _ _ _ C). apply in_remove_out. split; auto.
      cbn [at_queue set_mem v_out]. rewrite <- E. apply L2.
  - intros n. unfold upd. destruct (Nat.eqb_spec n (p_serial p)) as [->|Ne]; [left; auto|].
    destruct (i_ops _ _ _ _ _ _ _ I n) as [X|(p2 & H2 & E)]; auto. right. exists p2. split; auto.
    apply in_app_iff in H2 as [H2|[<-|H2]]; [apply in_or_app; auto|congruence|apply in_or_app; auto].
Qed.

Lemma read_data_some : forall off len (got : nat -> option sector), (off + len <= size)%nat ->
  in_range_all size off len (fun i => is_some (got i)) = true ->
  (forall i v, got i = Some v -> N.of_nat (length v) = 512) ->
  exists v, read_data len got = map Some v /\ Forall (fun s => N.of_nat (length s) = 512) v /\ length v = len.
Proof.
  intros * Hs H Hg. exists (map (fun i => match got i with Some v => v | None => [] end) (seq 0 len)).
  unfold in_range_all in H. rewrite forallb_forall in H.
  assert (G : forall i, In i (seq 0 len) -> exists v, got i = Some v).
  { intros i Hi. pose proof (H i Hi) as X. apply in_seq in Hi. destruct (got i); [eauto|].
    cbn [is_some] in X. lia. }
  split; [|split; [|rewrite map_length, seq_length; reflexivity]].
  - unfold read_data. rewrite map_map. apply map_ext_in. intros i Hi. destruct (G i Hi) as (v & ->). reflexivity.
  - apply Forall_forall. intros s Hin. apply in_map_iff in Hin as (i & <- & Hi).
    destruct (G i Hi) as (v & E). rewrite E. eauto.
Qed.

(** What the device reports for a request the driver waits for. *)
Lemma reported : forall g P d d' p id k sl ok d1 q2 id2 data,
  Inv g P d d' -> linked g d d' p id k sl ->
  dstep size d (DDone (p_serial p) ok) = Some (d1, [TDone (p_serial p) q2 id2 ok data]) ->
  q2 = p_queue p /\ id2 = id /\
  (if ok
   then (rq_type (p_rq p) = TIn -> readable valid (p_rq p) /\ exists v, data = map Some v /\
           Forall (fun s => N.of_nat (length s) = 512) v /\
           512 * N.of_nat (length v) = total_len (rq_data (p_rq p))) /\
        (rq_type (p_rq p) <> TIn -> data = [])
   else data = []) /\
  exists hist dn,
    (forall x e, (x < size)%nat -> In e (hist x) -> N.of_nat (length (snd e)) = 512) /\
    d1 = mk_disk (upd (d_ops d) (p_serial p) None) (d_used d) hist dn /\
    dstep size d' (DDone (p_serial p) ok) =
      Some (mk_disk (upd (d_ops d') (p_serial p) None) (d_used d') hist dn,
            [TDone (p_serial p) (p_queue p) (N.to_nat (p_head p)) ok data]).
Proof.
  intros * I L H. cbn [dstep] in *.
  rewrite (l_op _ _ _ _ _ _ _ _ _ _ L) in H. rewrite (l_op' _ _ _ _ _ _ _ _ _ _ L).
  pose proof (l_kind _ _ _ _ _ _ _ _ _ _ L) as K.
  pose proof (i_512 _ _ _ _ _ _ _ I) as H5. pose proof (i_hist _ _ _ _ _ _ _ I) as EH.
  pose proof (i_done _ _ _ _ _ _ _ I) as ED.
  destruct ok.
  - destruct k as [off len got|off dat ap|snap]; cbn [kind_ok] in K.
    + destruct (in_range_all size off len (fun i => is_some (got i))) eqn:Er; [|discriminate].
      injection H as <- <- <- <-. destruct K as (K1 & K2 & K3 & K4 & K5).
      destruct (read_data_some _ _ _ K3 Er K5) as (v & Ev & Fv & Lv).
      split; auto. split; auto. split.
      { split; [|congruence]. intros _. split; auto. exists v. rewrite Lv. auto. }
      exists (d_hist d), (d_done d). unfold finish. rewrite EH, ED. auto.
    + destruct (in_range_all size off (length dat) ap) eqn:Er; [|discriminate].
      injection H as <- <- <- <-. destruct K as (K1 & K2). split; auto. split; auto. split; [split; auto; congruence|].
      exists (d_hist d), (upd (d_done d) (p_serial p) true). rewrite EH, ED. auto.
    + injection H as <- <- <- <-. split; auto. split; auto. split; [split; auto; congruence|].
      exists (fun s => trim snap (d_hist d s)), (d_done d). rewrite EH, ED. split; auto.
      intros x e Hx Hin. apply (H5 x); auto. revert Hin. clear. generalize (d_hist d x). intros l.
      induction l as [|a l IH]; cbn [trim]; auto. destruct (snap (fst a)).
      * intros [<-|[]]. left. reflexivity.
      * intros [<-|Hi]; [left; reflexivity|right; auto].
  - injection H as <- <- <- <-. split; auto. split; auto. split; auto.
    exists (d_hist d), (d_done d). unfold finish. rewrite EH, ED. auto.
Qed.

Lemma done_contract : forall g P d d' p id k sl ok d1 q2 id2 data,
  Inv g P d d' -> linked g d d' p id k sl ->
  dstep size d (DDone (p_serial p) ok) = Some (d1, [TDone (p_serial p) q2 id2 ok data]) ->
  channel_contract (at_queue g (p_queue p)) (EDone id ok (bytes_of data)).
Proof.
  intros * I L H. destruct (reported _ _ _ _ _ _ _ _ _ _ _ _ _ I L H) as (-> & -> & R & _).
  cbn [channel_contract]. split; [apply L|]. intros -> sl2 Hs T.
  cbn [at_queue set_mem v_slots] in Hs. rewrite (l_slot _ _ _ _ _ _ _ _ _ _ L) in Hs. injection Hs as <-.
  rewrite (l_type _ _ _ _ _ _ _ _ _ _ L) in T. destruct R as [R _].
  destruct (R T) as (_ & v & -> & Fv & Lv). rewrite bytes_of_some, concat_length512 by exact Fv.
  rewrite (l_len _ _ _ _ _ _ _ _ _ _ L T). exact Lv.
Qed.

Lemma done_found : forall g P d d' p id k sl ok d1 q2 id2 data s',
  Inv g P d d' -> linked g d d' p id k sl ->
  dstep size d (DDone (p_serial p) ok) = Some (d1, [TDone (p_serial p) q2 id2 ok data]) ->
  complete_one valid qsize id ok (bytes_of data) (at_queue g (p_queue p)) = Ok s' ->
  completed valid qsize id sl (at_queue g (p_queue p)) s' /\ small_slots s' /\
  v_used s' = v_used (g_queue g (p_queue p)) ++ [p_head p] /\
  finds (v_mem s') (p_rq p) ok data.
Proof.
  intros * I L H C. pose proof (done_contract _ _ _ _ _ _ _ _ _ _ _ _ _ I L H) as CC.
  destruct (reported _ _ _ _ _ _ _ _ _ _ _ _ _ I L H) as (-> & -> & R & _).
  pose proof (l_slot _ _ _ _ _ _ _ _ _ _ L) as Hs.
  destruct CC as [CC1 CC2].
  destruct (complete_one_effect valid qsize id ok (bytes_of data) (at_queue g (p_queue p)) s' sl
              (i_vinv _ _ _ _ _ _ _ I _) CC1 Hs (fun o t => CC2 o sl Hs t) C) as (Co & m1 & wok & W & M).
  assert (Sm : small_slots s').
  { apply (step_small valid qsize did (at_queue g (p_queue p)) (EDone id ok (bytes_of data)));
      [apply (i_vinv _ _ _ _ _ _ _ I (p_queue p))|apply (i_small _ _ _ _ _ _ _ I (p_queue p))|split; auto|exact Logic.I|exact C]. }
  split; [exact Co|]. split; [exact Sm|]. split.
  { destruct (co_used _ _ _ _ _ _ Co) as (h & Eh & Eu & _). rewrite (l_chain _ _ _ _ _ _ _ _ _ _ L) in Eh.
    injection Eh as <-. rewrite Eu. cbn [at_queue set_mem v_used]. f_equal. unfold in_queue.
    pose proof (l_head _ _ _ _ _ _ _ _ _ _ L). destruct (N.ltb_spec (p_head p) qsize); [reflexivity|lia]. }
  rewrite (l_type _ _ _ _ _ _ _ _ _ _ L), (l_data _ _ _ _ _ _ _ _ _ _ L) in W.
  rewrite (l_status _ _ _ _ _ _ _ _ _ _ L) in M.
  assert (Mst : v_mem s' (rq_status (p_rq p)) = if ok && wok then S_OK else S_IOERR).
  { rewrite M. unfold gm_upd. rewrite N.eqb_refl. reflexivity. }
  destruct ok.
  2:{ subst data. apply finds_failed. rewrite Mst. discriminate. }
  destruct R as [R1 R2]. destruct (is_in (rq_type (p_rq p))) eqn:T; cbn [andb] in *.
  - apply is_in_true in T. destruct (R1 T) as ((Rv & Rd & Rs) & v & -> & Fv & Lv).
    assert (wok = true) as -> by (apply (write_to_guest_status _ _ _ _ _ _ _ W); auto).
    apply finds_data; auto. split; [|exact Fv].
    rewrite (seg_contents_same (fun x => x = rq_status (p_rq p)) _ m1).
    + rewrite (write_to_guest_ok _ _ _ _ _ _ W Rd), bytes_of_some. cbn [N.to_nat skipn].
      pose proof (concat_length512 _ Fv) as CL.
      replace (N.to_nat (total_len (rq_data (p_rq p)))) with (length (concat v)) by lia.
      unfold splice. cbn [firstn app]. rewrite firstn_app, Nat.sub_diag, firstn_all, app_nil_r. reflexivity.
    + intros x Hx. rewrite M. unfold gm_upd. destruct (N.eqb_spec x (rq_status (p_rq p))); congruence.
    + intros x Hx ->. auto.
  - injection W as <- <-. assert (rq_type (p_rq p) <> TIn) as T2 by (intros E; apply is_in_true in E; congruence).
    rewrite (R2 T2). apply finds_done; auto.
Qed.

(** ** One event *)
Lemma not_io_at_once : forall g P d d' q c n s' rq head datas st, Inv g P d d' ->
  block_request valid (g_mem g) c rq head datas st -> ~ is_io rq ->
  process_chain valid qsize did c (at_queue g q) = Ok s' ->
  handed n q (at_queue g q) s' = [] /\
  (forall id, In id (v_out (g_queue g q)) -> In id (v_out s') /\
     nth_error (v_slots s') id = nth_error (v_slots (g_queue g q)) id).
Proof.
  intros * I B N H. pose proof (i_vinv _ _ _ _ _ _ _ I q) as Hi.
  assert (Ep : parse valid (g_mem g) c = Ok rq) by (apply parse_ok; eauto).
  destruct (process_chain_effect valid qsize did c (at_queue g q) s' Hi H) as [F|(rq2 & o & Ep2 & F)].
  - split.
    + unfold handed. rewrite (fa_ops _ _ _ _ _ F), skipn_all. reflexivity.
    + intros id Hid. split; [rewrite (fa_out _ _ _ _ _ F); exact Hid|]. apply (fa_keep _ _ _ _ _ F _ Hid).
  - exfalso. destruct (issued_by valid qsize did c (at_queue g q) s' o Hi H (ho_ops _ _ _ _ _ _ F)) as (rq3 & Ep3 & _ & T & _).
    cbn [at_queue set_mem v_mem] in Ep3. rewrite Ep in Ep3. injection Ep3 as <-. apply N, T.
Qed.

Lemma handed_one : forall n q s s' o head rq, handed_over valid head rq s s' o ->
  handed n q s s' = [TIssue n q (vop_id o) (req_of o)].
Proof.
  intros * F. unfold handed. rewrite (ho_ops _ _ _ _ _ _ F).
  rewrite skipn_app, skipn_all, Nat.sub_diag. reflexivity.
Qed.

Lemma init_inv : forall m used hist dn,
  (forall x e, (x < size)%nat -> In e (hist x) -> N.of_nat (length (snd e)) = 512) ->
  Inv (ginit nslots bufsize m) [] (mk_disk (fun _ => None) used hist dn) (mk_disk (fun _ => None) used hist dn).
Proof.
  intros * H. constructor; cbn [d_ops d_used d_hist d_done]; auto.
  - intros q. apply vinit_inv.
  - intros q i sl E Hu. cbn [ginit g_queue vinit v_slots] in E. apply nth_error_In, repeat_spec in E. subst sl. discriminate.
  - intros p [].
  - constructor.
Qed.

Lemma sim_event : forall g P d d' e g' t P' w es d1,
  Inv g P d d' -> driver_ok valid qsize size g P e ->
  gstep valid qsize did nslots bufsize g e = Ok (g', t) -> watch valid g e g' P P' w ->
  drun size d es = Some (d1, t) ->
  exists es' d1', drun size d' es' = Some (d1', w) /\ Inv g' P' d1 d1'.
Proof.
  intros * I D G W R. destruct W as
    [q c n rq head datas st r P E B Io A|q c n rq head datas st P E B Io|n q id okd datad h n' rq ok data P1 P2 E U F|
     q ei needs P E|a b P E|m P E]; subst e; cbn [gstep] in G.
  - destruct (process_chain valid qsize did c (at_queue g q)) as [s'| |] eqn:Hp; cbn [bindr] in G; try discriminate.
    injection G as <- <-.
    destruct D as (Hq & Hnew & rq0 & head0 & datas0 & st0 & B0 & Hl & Hid & Hio & Hin) eqn:ED. rename D into D0.
    assert (rq0 = rq) as ->.
    { assert (E1 : parse valid (g_mem g) c = Ok rq) by (apply parse_ok; eauto).
      assert (E2 : parse valid (g_mem g) c = Ok rq0) by (apply parse_ok; eauto). congruence. }
    destruct (pop_small _ _ _ _ q _ _ _ _ _ _ I B Hl Hid Hp) as [Hv Hs].
    destruct (pop_io (at_queue g q) c s' rq head datas st (i_vinv _ _ _ _ _ _ _ I q) B Hl) as (o & Hh & As & T); auto.
    { intros X. destruct (Hio X) as (? & ? & _). auto. }
    rewrite (handed_one _ _ _ _ _ _ _ Hh) in R.
    destruct (drun_item _ _ _ _ _ _ R) as (e0 & e & e2 & da & db & R1 & R2 & R3).
    destruct (sim_silents _ _ _ _ _ _ I R1) as (da' & S1 & I1).
    apply item_issue in R2 as [Hn ->].
    assert (r = req_of o) as -> by (eapply asks_unique; eauto).
    pose proof (inv_issue _ _ _ _ _ _ _ _ _ _ _ _ _ I1 D0 B Hv Hs Hh As T Hn) as I2.
    destruct (sim_silents _ _ _ _ _ _ I2 R3) as (d1' & S3 & I3).
    exists (e0 ++ DIssue n q (N.to_nat (c_head c)) (req_of o) :: e2), d1'. split; auto.
    eapply (drun_app2 size e0 d' da' d1' [] _ _ S1). cbn [drun dstep].
    rewrite (i_used _ _ _ _ _ _ _ I1), Hn, S3. reflexivity.
  - destruct (process_chain valid qsize did c (at_queue g q)) as [s'| |] eqn:Hp; cbn [bindr] in G; try discriminate.
    injection G as <- <-.
    destruct D as (Hq & Hnew & rq0 & head0 & datas0 & st0 & B0 & Hl & Hid & Hio & Hin).
    assert (rq0 = rq) as ->.
    { assert (E1 : parse valid (g_mem g) c = Ok rq) by (apply parse_ok; eauto).
      assert (E2 : parse valid (g_mem g) c = Ok rq0) by (apply parse_ok; eauto). congruence. }
    destruct (pop_small _ _ _ _ q _ _ _ _ _ _ I B Hl Hid Hp) as [Hv Hs].
    destruct (not_io_at_once _ _ _ _ q _ n _ _ _ _ _ I B Io Hp) as [Hh Hk]. rewrite Hh in R.
    destruct (sim_silents _ _ _ _ _ _ I R) as (d1' & S1 & I1). exists es, d1'. split; auto.
    apply inv_put; auto.
  - destruct (complete_one valid qsize id okd (bytes_of datad) (at_queue g q)) as [s'| |] eqn:Hc; cbn [bindr] in G; try discriminate.
    injection G as <- <-.
    destruct (drun_item _ _ _ _ _ _ R) as (e0 & e & e2 & da & db & R1 & R2 & R3).
    destruct (sim_silents _ _ _ _ _ _ I R1) as (da' & S1 & I1).
    apply item_done in R2 as (k & Ho & R2).
    destruct (inv_at _ _ _ _ _ _ I1 Ho) as (p & id' & k' & sl & Hp & En & L & Eo & Ho'). subst n.
    injection Eo as -> <- <-.
    destruct (done_found _ _ _ _ _ _ _ _ _ _ _ _ _ _ I1 L R2 Hc) as (Co & Sm & Us & Fi).
    assert (p = mk_pending (p_queue p) h n' rq) as Ep.
    { eapply (key_inj (P1 ++ mk_pending (p_queue p) h n' rq :: P2)); [apply I|exact Hp|apply in_or_app; right; left; reflexivity|].
      unfold key. cbn [p_queue p_head]. f_equal. unfold used_ring in U. rewrite put_queue, Nat.eqb_refl, Us in U.
      apply app_inv_head in U. injection U as ->. reflexivity. }
    assert (h = p_head p /\ n' = p_serial p /\ rq = p_rq p) as (-> & -> & ->) by (rewrite Ep; auto).
    rewrite <- Ep in I, I1, Hp.
    cbn [put g_mem] in F. destruct (finds_unique _ _ _ _ _ _ F Fi) as [-> ->].
    destruct (reported _ _ _ _ _ _ _ _ _ _ _ _ _ I1 L R2) as (_ & _ & _ & hist & dn & H5 & -> & St).
    pose proof (inv_finish _ _ _ _ _ _ _ _ _ _ _ dn I1 L Co Sm H5) as I2.
    destruct (sim_silents _ _ _ _ _ _ I2 R3) as (d1' & S3 & I3).
    exists (e0 ++ DDone (p_serial p) okd :: e2), d1'. split; auto.
    eapply (drun_app2 size e0 d' da' d1' [] _ _ S1). cbn [drun]. rewrite St, S3. reflexivity.
  - injection G as <- <-. destruct (sim_silents _ _ _ _ _ _ I R) as (d1' & S1 & I1). exists es, d1'. split; auto.
    pose proof (signal_rest ei needs (at_queue g q)) as Sr. cbv zeta in Sr. destruct Sr as (_ & S2 & _ & S4 & _).
    apply inv_put; auto.
    + unfold vinv. rewrite S2, S4. apply (i_vinv _ _ _ _ _ _ _ I q).
    + unfold small_slots. rewrite S2. apply (i_small _ _ _ _ _ _ _ I q).
    + intros id Hid. rewrite S2, S4. auto.
  - injection G as <- <-. destruct (sim_silents _ _ _ _ _ _ I R) as (d1' & S1 & I1). exists es, d1'. split; auto.
    apply (inv_other _ _ _ _ (mk_gst (gm_upd (g_mem g) a b) (g_queue g)) I1); cbn [g_queue]; auto; apply I.
  - injection G as <- <-.
    destruct (drun_item _ _ _ _ _ _ R) as (e0 & e & e2 & da & db & R1 & R2 & R3).
    destruct (sim_silents _ _ _ _ _ _ I R1) as (da' & S1 & I1).
    apply item_crash in R2 as (sv & ->).
    assert (I2 : Inv (ginit nslots bufsize m) []
      (mk_disk (fun _ => None) (d_used da) (fun s => crashed (d_hist da s) (sv s)) (d_done da))
      (mk_disk (fun _ => None) (d_used da) (fun s => crashed (d_hist da s) (sv s)) (d_done da))).
    { apply init_inv. intros x he Hx Hin. unfold crashed in Hin.
      pose proof (i_512 _ _ _ _ _ _ _ I1 x) as H5.
      destruct (nth_error (d_hist da x) (sv x)) as [y|] eqn:Ey.
      - destruct Hin as [<-|[]]. cbn [snd]. apply (H5 y); auto. eapply nth_error_In; eauto.
      - destruct (d_hist da x) as [|y l]; [destruct Hin|]. destruct Hin as [<-|[]]. cbn [snd]. apply (H5 y); auto. left; auto. }
    destruct (sim_silents _ _ _ _ _ _ I2 R3) as (d1' & S3 & I3).
    exists (e0 ++ DCrash sv :: e2), d1'. split; auto.
    eapply (drun_app2 size e0 d' da' d1' [] _ _ S1). cbn [drun dstep].
    rewrite (i_used _ _ _ _ _ _ _ I1), (i_hist _ _ _ _ _ _ _ I1), (i_done _ _ _ _ _ _ _ I1), S3. reflexivity.
Qed.

Lemma sim_session : forall m0 contents g P tr gtr, 
  (forall x, (x < size)%nat -> N.of_nat (length (contents x)) = 512) ->
  session valid qsize did nslots bufsize size m0 g P tr gtr ->
  forall es d, drun size (new_disk contents) es = Some (d, tr) ->
  exists es' d', drun size (new_disk contents) es' = Some (d', gtr) /\ Inv g P d d'.
Proof.
  intros * Hc S. induction S as [|g P tr gtr e g' t P' w S IH D G W]; intros es d R.
  - assert (I : Inv (ginit nslots bufsize m0) [] (new_disk contents) (new_disk contents)).
    { apply init_inv. intros x e Hx [<-|[]]. apply Hc. exact Hx. }
    destruct (sim_silents _ _ _ _ _ _ I R) as (d' & S1 & I1). eauto.
  - destruct (drun_cut _ _ _ _ _ _ R) as (e1 & e2 & dm & R1 & R2).
    destruct (IH _ _ R1) as (es1 & dm' & S1 & I1).
    destruct (sim_event _ _ _ _ _ _ _ _ _ _ _ I1 D G W R2) as (es2 & d' & S2 & I2).
    exists (es1 ++ es2), d'. split; auto. eapply drun_app2; eauto.
Qed.

(** ** The backend and its watcher go on *)
Lemma goes_on : forall g P d d' e es d1,
  Inv g P d d' -> driver_ok valid qsize size g P e ->
  match e with
  | GDone n q id ok data => drun size d es = Some (d1, [TDone n q id ok data])
  | _ => True
  end ->
  exists g' t P' w, gstep valid qsize did nslots bufsize g e = Ok (g', t) /\ watch valid g e g' P P' w.
Proof.
  intros * I D R. destruct e as [q c n|n q id ok data|q ei needs|a b|m]; cbn [gstep].
  - destruct D as (Hq & Hnew & rq & head & datas & st & B & Hl & Hid & Hio & Hin).
    assert (Ep : parse valid (g_mem g) c = Ok rq) by (apply parse_ok; eauto).
    destruct (process_chain_no_panic valid qsize did c (at_queue g q) (i_vinv _ _ _ _ _ _ _ I q)) as (s' & Hp).
    { intros rq2 E2. cbn [at_queue set_mem v_mem] in E2. rewrite Ep in E2. injection E2 as <-. auto. }
    rewrite Hp. cbn [bindr].
    assert (is_io rq \/ ~ is_io rq) as [Io|Io].
    { unfold is_io. destruct (rq_type rq); auto; right; intros [X|[X|X]]; discriminate. }
    + destruct (pop_io (at_queue g q) c s' rq head datas st (i_vinv _ _ _ _ _ _ _ I q) B Hl) as (o & Hh & As & T); auto.
      { intros X. destruct (Hio X) as (? & ? & _). auto. }
      do 4 eexists. split; [reflexivity|]. eapply w_io; eauto.
    + do 4 eexists. split; [reflexivity|]. eapply w_other; eauto.
  - destruct (drun_item _ _ _ _ _ _ R) as (e0 & e & e2 & da & db & R1 & R2 & R3).
    destruct (sim_silents _ _ _ _ _ _ I R1) as (da' & S1 & I1).
    apply item_done in R2 as (k & Ho & R2).
    destruct (inv_at _ _ _ _ _ _ I1 Ho) as (p & id' & k' & sl & Hp & En & L & Eo & Ho'). subst n.
    injection Eo as -> <- <-.
    pose proof (done_contract _ _ _ _ _ _ _ _ _ _ _ _ _ I1 L R2) as CC.
    destruct (complete_one_no_panic valid qsize id ok (bytes_of data) (at_queue g (p_queue p))
      (i_vinv _ _ _ _ _ _ _ I _) (i_small _ _ _ _ _ _ _ I (p_queue p)) CC) as (s' & Hc).
    rewrite Hc. cbn [bindr].
    destruct (done_found _ _ _ _ _ _ _ _ _ _ _ _ _ _ I1 L R2 Hc) as (Co & Sm & Us & Fi).
    apply in_split in Hp as (P1 & P2 & ->).
    destruct p as [q h n rq]. cbn [p_queue p_head p_serial p_rq] in *.
    do 4 eexists. split; [reflexivity|].
    eapply w_done; eauto. unfold used_ring. rewrite put_queue, Nat.eqb_refl. exact Us.
  - do 4 eexists. split; [reflexivity|]. eapply w_signal; eauto.
  - do 4 eexists. split; [reflexivity|]. eapply w_store; eauto.
  - do 4 eexists. split; [reflexivity|]. eapply w_crash; eauto.
  Unshelve. all: exact P.
Qed.
End Sim.
