(** The lazy device simulates an ordinary disk. *)
From Coq Require Import List Arith NArith Bool Lia ZifyBool ZifyNat.
Import ListNotations.
From Verif Require Import Base BaseFacts DiskSpec LazyState MetadataModel LazyModel LazyInv LazyTac
  LazyInvGuest LazyInvFetch LazyInvMeta LazySpec.

Section Sim.
Context {V : Type}.
Variable c : cfg V.
Variable hsrc : nat -> bool.
Hypothesis WF : wf c.

Notation Inv := (Inv c hsrc).

(** ** The relation *)

(** Histories of one sector: the base device's history is an initial part of the
    ordinary disk's, except that its oldest entry may have been written by the
    fetcher. *)
Definition hist_rel (used : nat -> bool) (l l' : list (nat * V)) : Prop :=
  exists u w w' v rest, l = u ++ [(w, v)] /\ l' = u ++ (w', v) :: rest /\
    forall e, In e u -> used (fst e) = true.

Definition kmatch (s : state V) (d : disk V) (dv : device) (k : opkind V) (k' : dkind V) : Prop :=
  match dv, k, k' with
  | DBase, KWrite off len data ap, DWrite off' data' ap' =>
    data = WData data' /\ off' = off /\ len = length data' /\ forall i, ap i = ap' i
  | DBase, KRead off len got, DRead off' len' got' =>
    off' = off /\ len' = len /\ forall i, got i = got' i
  | DBase, KFlush snap, DFlush snap' =>
    (forall n, d_used d n = true -> snap n = snap' n) /\
    (forall n, snap n = true -> n < next s) /\ (forall n, snap' n = true -> d_used d n = true)
  | DImage, KRead off len got, DRead off' len' got' =>
    off' = off /\ len' = len /\
    forall i, i < len ->
      (got i = None \/ (off + i < src c /\ got i = Some (image c (off + i)))) /\
      (if off + i <? target c then off + i < src c /\ got' i = Some (image c (off + i)) else got' i = None)
  | _, _, _ => False
  end.

Definition fresh_kind (r : req V) : option (dkind V) :=
  match r with
  | RRead off len => Some (DRead off len (fun _ => None))
  | RWrite off data => Some (DWrite off data (fun _ => false))
  | RFlush => None
  end.

Definition serials (s : state V) (q : nat) : list nat :=
  map (@rq_serial V) (chq s q) ++ map fst (chfin s q).

Record Sim (s : state V) (d : disk V) : Prop := {
  s_used0 : d_used d 0 = true /\ d_done d 0 = true;
  s_used : forall n, d_used d n = true -> n < next s /\ bdone s n = d_done d n;
  s_done : forall n, d_done d n = true -> d_used d n = true;
  s_opsused : forall n o, d_ops d n = Some o -> d_used d n = true;
  s_rel : forall x, x < target c -> released (shf s (x / ssc c)) = true -> hist_rel (d_used d) (bh s x) (d_hist d x);
  s_unrel : forall x, x < target c -> released (shf s (x / ssc c)) = false -> d_hist d x = [(0, image c x)];
  s_queue : forall q r, In r (chq s q) -> exists k, fresh_kind (rq_req r) = Some k /\
              d_ops d (rq_serial r) = Some (mk_dop q (rq_id r) k);
  s_fin : forall q n id, In (n, id) (chfin s q) -> exists k, d_ops d n = Some (mk_dop q id k);
  s_nodup : forall q, NoDup (serials s q) /\ forall n, In n (serials s q) -> ops s n = None;
  s_guest : forall n q id dv k, ops s n = Some (mk_op (OGuest q id) dv k) ->
              exists k', d_ops d n = Some (mk_dop q id k') /\ kmatch s d dv k k';
  s_fetch : forall n st dv k, ops s n = Some (mk_op (OFetch st) dv k) -> d_used d n = false;
  s_loc : panic s = false -> forall n o, d_ops d n = Some o ->
            In n (serials s (d_ch o)) \/ exists dv k, ops s n = Some (mk_op (OGuest (d_ch o) (d_id o)) dv k)
}.

(** ** Facts about histories *)

Lemma hist_cur used l l' : hist_rel used l l' -> cur l = cur l'.
Proof. intros (u & w & w' & v & rest & -> & -> & _). destruct u; reflexivity. Qed.

Lemma hist_push used l l' n v : hist_rel used l l' -> used n = true -> hist_rel used ((n, v) :: l) ((n, v) :: l').
Proof.
  intros (u & w & w' & v' & rest & -> & -> & Hu) Hn. exists ((n, v) :: u), w, w', v', rest. repeat split; auto.
  intros e [<-|He]; auto.
Qed.

Lemma hist_used used used' l l' : hist_rel used l l' -> (forall n, used n = true -> used' n = true) -> hist_rel used' l l'.
Proof. intros (u & w & w' & v' & rest & -> & -> & Hu) H. exists u, w, w', v', rest. repeat split; auto. Qed.

Lemma hist_trim_left used snap l l' : hist_rel used l l' -> hist_rel used (trim snap l) l'.
Proof.
  intros (u & w & w' & v & rest & -> & -> & Hu). revert Hu. induction u as [|e u IH]; intros Hu.
  - cbn [app]. rewrite trim_single. exists [], w, w', v, rest. auto.
  - cbn [app trim]. destruct (snap (fst e)).
    + exists [], (fst e), (fst e), (snd e), (u ++ (w', v) :: rest). destruct e; cbn; repeat split; auto; intros ? [].
    + destruct (IH (fun e' H => Hu e' (or_intror H))) as (u1 & a & a' & v1 & r1 & E1 & E2 & H1).
      exists (e :: u1), a, a', v1, r1. rewrite E1, E2. repeat split; auto.
      intros e' [<-|He]; auto. apply Hu. now left.
Qed.

Lemma hist_trim used (snap snap' : nat -> bool) l l' : hist_rel used l l' ->
  (forall n, used n = true -> snap n = snap' n) -> hist_rel used (trim snap l) (trim snap' l').
Proof.
  intros (u & w & w' & v & rest & -> & -> & Hu) Hs. revert Hu. induction u as [|e u IH]; intros Hu.
  - cbn [app]. rewrite trim_single. destruct (trim_head snap' w' v rest) as (l' & ->).
    exists [], w, w', v, l'. auto.
  - cbn [app trim]. rewrite <- (Hs (fst e)) by (apply Hu; now left). destruct (snap (fst e)).
    + exists [], (fst e), (fst e), (snd e), []. destruct e; cbn; repeat split; auto; intros ? [].
    + destruct (IH (fun e' H => Hu e' (or_intror H))) as (u1 & a & a' & v1 & r1 & E1 & E2 & H1).
      exists (e :: u1), a, a', v1, r1. rewrite E1, E2. repeat split; auto.
      intros e' [<-|He]; auto. apply Hu. now left.
Qed.

Lemma nth_error_prefix {A} (u : list A) a r i : i < length u -> nth_error (u ++ a :: r) i = nth_error (u ++ [a]) i.
Proof. intros H. rewrite !nth_error_app1 by lia. auto. Qed.

Definition sim_pick (l : list (nat * V)) (i : nat) : nat := if i <? length l then i else 0.

Lemma hist_crash used l l' i : used 0 = true -> hist_rel used l l' ->
  hist_rel used (crashed l i) (crashed l' (sim_pick l i)).
Proof. clear hsrc WF.
  intros Hz (u & w & w' & v & rest & -> & -> & Hu).
  assert (X : exists v1, crashed (u ++ [(w, v)]) i = [(0, v1)] /\
                         crashed (u ++ (w', v) :: rest) (sim_pick (u ++ [(w, v)]) i) = [(0, v1)]).
  { unfold crashed, sim_pick. rewrite app_length. cbn [length].
    destruct (Nat.ltb_spec i (length u + 1)).
    - destruct (Nat.eq_dec i (length u)) as [->|].
      + rewrite !nth_error_app2, Nat.sub_diag by lia. cbn. eauto.
      + rewrite !nth_error_app1 by lia. destruct (nth_error u i) as [e|] eqn:E; [eauto|].
        apply nth_error_None in E. lia.
    - destruct (nth_error (u ++ [(w, v)]) i) eqn:E.
      + assert (nth_error (u ++ [(w, v)]) i <> None) by congruence. apply nth_error_Some in H0.
        rewrite app_length in H0. cbn in H0. lia.
      + destruct u; cbn; eauto. }
  destruct X as (v1 & -> & ->). exists [], 0, 0, v1, []. repeat split; auto; intros ? [].
Qed.

Lemma in_range_all_ext sz off len p p' : (forall i, i < len -> p i = p' i) ->
  in_range_all sz off len p = in_range_all sz off len p'.
Proof.
  intros H. unfold in_range_all. assert (E : forall i, In i (seq 0 len) -> negb (off + i <? sz) || p i = negb (off + i <? sz) || p' i).
  { intros i Hi. apply in_seq in Hi. rewrite H by lia. auto. }
  revert E. generalize (seq 0 len). intros l. induction l as [|a l IH]; intros E; cbn [forallb]; auto.
  rewrite (E a) by (now left). f_equal. apply IH. intros; apply E. now right.
Qed.

(** ** Steps that the ordinary disk does not see *)

Lemma kmatch_frame s s' d dv k k' : next s <= next s' -> kmatch s d dv k k' -> kmatch s' d dv k k'.
Proof.
  intros Hn. unfold kmatch. destruct dv, k, k'; auto. intros (A & B & C). repeat split; auto.
  intros n H. specialize (B n H). lia.
Qed.

Lemma sim_frame s s' d : Sim s d ->
  chq s' = chq s -> chfin s' = chfin s -> next s <= next s' ->
  (forall n q id dv k, ops s' n = Some (mk_op (OGuest q id) dv k) <-> ops s n = Some (mk_op (OGuest q id) dv k)) ->
  (forall n, n < next s -> ops s n = None -> ops s' n = None) ->
  (forall n st dv k, ops s' n = Some (mk_op (OFetch st) dv k) -> d_used d n = false) ->
  (forall n, d_used d n = true -> bdone s' n = bdone s n) ->
  (forall st, released (shf s' st) = released (shf s st)) ->
  (forall x, x < target c -> released (shf s (x / ssc c)) = true -> hist_rel (d_used d) (bh s' x) (d_hist d x)) ->
  (panic s' = false -> panic s = false) ->
  Sim s' d.
Proof.
  intros HS Eq Ef Hn Hg Ho Hfe Hb Hr Hh Hp.
  assert (Es : forall q, serials s' q = serials s q) by (intros; unfold serials; rewrite Eq, Ef; auto).
  constructor.
  - exact (s_used0 _ _ HS).
  - intros n H. destruct (s_used _ _ HS n H). rewrite Hb by auto. split; auto; lia.
  - exact (s_done _ _ HS).
  - exact (s_opsused _ _ HS).
  - intros x Hx. rewrite Hr. auto.
  - intros x Hx. rewrite Hr. apply (s_unrel _ _ HS); auto.
  - rewrite Eq. exact (s_queue _ _ HS).
  - rewrite Ef. exact (s_fin _ _ HS).
  - intros q. rewrite Es. destruct (s_nodup _ _ HS q) as [A B]. split; auto. intros n Hi. apply Ho; auto.
    unfold serials in Hi. rewrite in_app_iff, !in_map_iff in Hi.
    assert (X : exists o, d_ops d n = Some o).
    { destruct Hi as [(r & <- & Hi)|([n' id] & <- & Hi)].
      - destruct (s_queue _ _ HS _ _ Hi) as (k & _ & ->). eauto.
      - cbn. destruct (s_fin _ _ HS _ _ _ Hi) as (k & ->). eauto. }
    destruct X as (o & X). apply (s_used _ _ HS). eapply s_opsused; eauto.
  - intros n q id dv k H. apply Hg in H. destruct (s_guest _ _ HS _ _ _ _ _ H) as (k' & A & B). exists k'. split; auto.
    eapply kmatch_frame; eauto.
  - exact Hfe.
  - intros Hpp n o H. rewrite Es. destruct (s_loc _ _ HS (Hp Hpp) n o H) as [A|(dv & k & A)]; auto.
    right. exists dv, k. apply Hg. auto.
Qed.

(** The common case: only fields the relation does not mention change. *)
Lemma sim_same s s' d : Sim s d ->
  chq s' = chq s -> chfin s' = chfin s -> next s <= next s' -> ops s' = ops s -> bdone s' = bdone s ->
  (forall st, released (shf s' st) = released (shf s st)) -> bh s' = bh s -> (panic s' = false -> panic s = false) ->
  Sim s' d.
Proof.
  intros HS A B C D E F G H. apply (sim_frame s s' d); auto; rewrite ?D, ?E, ?G; try tauto; auto.
  - intros n st dv k. apply (s_fetch _ _ HS).
  - intros x Hx. apply (s_rel _ _ HS); auto.
Qed.

Lemma rel_upd_failed (s : state V) st st' : released (shf s st) = false ->
  released (upd (shf s) st Failed st') = released (shf s st').
Proof. intros H. unfold upd. destruct (Nat.eqb_spec st' st); auto. subst. rewrite H. auto. Qed.

Lemma sim_fetch_completed s d st ok : Sim s d -> released (shf s st) = false -> Sim (fetch_completed c st ok s) d.
Proof.
  intros HS Hu. rewrite fetch_completed_eq. cbv zeta.
  assert (HS1 : Sim (release_buf st s) d /\ shf (release_buf st s) = shf s).
  { unfold release_buf. destruct (fbuf s st) as [b|]; auto. unfold return_fbuf.
    destruct (_ && _); (split; [|reflexivity]); apply (sim_same s); auto; discriminate. }
  destruct HS1 as [HS1 E]. rewrite <- E in Hu. clear E HS. generalize dependent (release_buf st s). clear s. intros s HS Hu.
  destruct ok; [apply (sim_same s); auto|]. destruct (_ <? _); [apply (sim_same s); auto|].
  destruct (_ <? _); apply (sim_same s); auto; try discriminate. intros; apply rel_upd_failed; auto.
Qed.

Lemma sim_handle_fetch s d st : Sim s d -> Sim (handle_fetch_request c st s) d.
Proof.
  intros HS. unfold handle_fetch_request. destruct (_ <? _); [|apply (sim_same s); auto; discriminate].
  destruct (released _); auto. destruct (fsts s st); auto. apply (sim_same s); auto.
Qed.

Lemma sim_start_fetch s d a : Inv s -> Sim s d -> Sim (start_fetch c a s) d.
Proof.
  intros HI HS. unfold start_fetch. destruct (fq s) as [|st q] eqn:Eq; auto. destruct (favail s) as [|b av] eqn:Ea; auto.
  cbv zeta. destruct (source_accepts _ _ _ _).
  - apply (sim_same s); auto. cbn. lia.
  - apply sim_fetch_completed; [apply (sim_same s); auto|]. cbn.
    assert (Hf : fsts s st = Some FQueued) by (apply (proj2 (i_F_queue _ _ _ HI)); rewrite Eq; now left).
    apply (i_F_unrel _ _ _ HI _ _ Hf). congruence.
Qed.

Lemma used_lt s d n : Sim s d -> d_used d n = true -> n < next s.
Proof. intros HS H. apply (s_used _ _ HS n H). Qed.

Lemma unused_next s d : Sim s d -> d_used d (next s) = false.
Proof. intros HS. destruct (d_used d (next s)) eqn:E; auto. pose proof (used_lt _ _ _ HS E). lia. Qed.

(** Adding an operation of the fetcher. *)
Lemma sim_add_fetch_op s s' d st dv k : Inv s -> Sim s d ->
  chq s' = chq s -> chfin s' = chfin s -> next s' = S (next s) ->
  ops s' = upd (ops s) (next s) (Some (mk_op (OFetch st) dv k)) -> bdone s' = bdone s ->
  shf s' = shf s -> bh s' = bh s -> panic s' = panic s -> Sim s' d.
Proof.
  intros HI HS A B C D E F G H. apply (sim_frame s s' d); auto; rewrite ?C, ?D, ?E, ?F, ?G, ?H; auto; try tauto.
  - intros n q id dv' k'. unfold upd. destruct (Nat.eqb_spec n (next s)); [|tauto]. subst. rewrite (ops_next c hsrc s) by auto. 
    split; discriminate.
  - intros n Hn Ho. unfold upd. destruct (Nat.eqb_spec n (next s)); auto. lia.
  - intros n st' dv' k' H'. unfold upd in H'. destruct (Nat.eqb_spec n (next s)).
    + subst. apply (unused_next _ _ HS).
    + exact (s_fetch _ _ HS _ _ _ _ H').
  - exact (s_rel _ _ HS).
Qed.

Lemma sim_src_done s d n ok : Inv s -> Sim s d -> Sim (src_done c n ok s) d.
Proof.
  intros HI HS. unfold src_done. destruct (sops s n) as [[st b]|] eqn:E; auto.
  destruct (i_F_sop _ _ _ HI _ _ _ E) as [Hf Hb]. cbv zeta.
  destruct ok.
  - change (fbuf (set_bufs _ _) st) with (fbuf s st). rewrite Hb. unfold start_write.
    destruct (_ <? _); [apply (sim_same s); auto; discriminate|]. cbv zeta. sred.
    eapply (sim_add_fetch_op s); [exact HI|exact HS|reflexivity..].
  - change (fbuf (set_sops _ _) st) with (fbuf s st). rewrite Hb.
    apply sim_fetch_completed; [apply (sim_same s); auto|]. apply (i_F_unrel _ _ _ HI _ _ Hf). congruence.
Qed.

Lemma sim_set_stripe_header s d st h :
  Inv s -> Sim s d -> (has_flag FLAG_FETCHED h = true -> has_flag FLAG_FETCHED (hdrs s st) = true) ->
  Sim (set_stripe_header c st h s) d.
Proof.
  intros HI HS Hh. unfold set_stripe_header. destruct (Nat.ltb_spec st (nst c)) as [Hst|];
    [|apply (sim_same s); auto; discriminate].
  set (s1 := if has_flag FLAG_FETCHED h
             then let prev := shf s st in
                  let s0 := set_shf (upd (shf s) st Fetched) s in
                  if released prev then s0 else set_cntF (S (cntF s0)) s0
             else s).
  assert (HS1 : Sim s1 d).
  { subst s1. destruct (has_flag FLAG_FETCHED h); auto. specialize (Hh eq_refl). cbv zeta.
    assert (X : Sim (set_shf (upd (shf s) st Fetched) s) d).
    2:{ destruct (released (shf s st)); auto. apply (sim_same (set_shf (upd (shf s) st Fetched) s)); auto. }
    destruct (released (shf s st)) eqn:Er.
    - apply (sim_same s); auto. intros x. cbn. unfold upd. destruct (Nat.eqb_spec x st); subst; auto.
    - destruct (i_M_safe _ _ _ HI st Hst (or_introl Hh)) as [_ [?|Hf]]; [congruence|].
      destruct (i_D_fetched _ _ _ HI st Hf) as [?|Hd]; [congruence|].
      destruct HS as [S1 S2 S3 S4 S5 S6 S7 S8 S9 S10 S11 S12]. constructor; auto; sred.
      + intros x Hx Hr. unfold upd in Hr. destruct (Nat.eqb_spec (x / ssc c) st) as [e|]; [|apply S5; auto].
        rewrite S6 by (auto; congruence). destruct (Hd x (conj e Hx)) as (w & ->).
        exists [], w, 0, (image c x), []. repeat split; auto; intros ? [].
      + intros x Hx Hr. unfold upd in Hr. destruct (Nat.eqb_spec (x / ssc c) st) as [e|]; [discriminate|]. apply S6; auto. }
  change (Sim (if has_flag FLAG_WRITTEN h then set_shw (upd (shw s1) st true) s1 else s1) d).
  destruct (has_flag FLAG_WRITTEN h); auto. apply (sim_same s1); auto.
Qed.

Lemma sim_meta_done s d n ok : Inv s -> Sim s d -> Sim (meta_done c n ok s) d.
Proof.
  intros HI HS. unfold meta_done. destruct (mops s n) as [[st g b ap|st snap]|] eqn:Eo; auto.
  - destruct (ok && negb ap); auto. cbv zeta. 
    destruct (i_M_write _ _ _ HI _ _ _ _ _ Eo) as (-> & (u & Hu & Hs & Eb) & A & B).
    unfold meta_completion. destruct ok.
    + replace (mupd (set_mdone _ _) st) with (Some u) by (symmetry; exact Hu). rewrite Hs.
      unfold meta_written, return_mbuf. destruct (_ && _); apply (sim_same s); auto; try discriminate; cbn; lia.
    + replace (mupd (set_mops _ _) st) with (Some u) by (symmetry; exact Hu).
      unfold meta_failed. rewrite Hs. unfold return_mbuf. destruct (_ && _); apply (sim_same s); auto; discriminate.
  - cbv zeta.
    destruct (i_M_flush _ _ _ HI _ _ _ Eo) as ((u & Hu & Hs) & w & v & l & Hw & Hmh & Hag).
    pose proof (i_M_upd _ _ _ HI _ _ Hu) as (_ & _ & _ & Eh & _).
    unfold meta_completion. destruct ok.
    + pose proof (inv_remove_mop c hsrc s n HI) as HI1. pose proof (no_mop_removed c hsrc s n _ HI Eo) as HN. cbn [mop_stripe] in HN.
      pose proof (inv_trim_mh c hsrc _ snap HI1) as HI2.
      set (s2 := set_mh _ _) in *.
      replace (mupd s2 st) with (Some u) by (symmetry; exact Hu). rewrite Hs.
      unfold meta_flushed. cbv zeta.
      pose proof (inv_drop_upd c hsrc s2 st u (hdrs s2) HI2 Hu Hs HN ltac:(auto) ltac:(auto) ltac:(auto)
         (fun E => proj1 (i_M_ackF _ _ _ HI2 st E)) (fun E => proj1 (proj2 (i_M_ackW _ _ _ HI2 st E)))) as HI3.
      replace (set_hdrs (hdrs s2) s2) with s2 in HI3 by reflexivity.
      apply sim_set_stripe_header; auto.
      * apply (sim_same s); auto.
      * intros X. cbn. congruence.
    + replace (mupd (set_mops _ _) st) with (Some u) by (symmetry; exact Hu).
      unfold meta_failed. rewrite Hs. apply (sim_same s); auto.
Qed.

Lemma sim_start_meta_write s d : Sim s d -> Sim (start_meta_write c s) d.
Proof.
  intros HS. unfold start_meta_write. destruct (mqueue s) as [|[st k] q]; auto. destruct (mavail s) as [|b av]; auto.
  cbv zeta. destruct (existsb _ _); auto. destruct (_ <? _); [|apply (sim_same s); auto; discriminate].
  destruct (has_flag _ _); apply (sim_same s); auto. cbn; lia.
Qed.

Lemma sim_meta_apply s d n : Sim s d -> Sim (meta_apply n s) d.
Proof.
  intros HS. unfold meta_apply. destruct (mops s n) as [[st g b [|]|]|]; auto. apply (sim_same s); auto.
Qed.

Lemma sim_scribble s d n i v : Sim s d -> Sim (scribble n i v s) d.
Proof. intros HS. unfold scribble. destruct (sops s n) as [[? ?]|]; auto. apply (sim_same s); auto. Qed.

Lemma sim_disconnect s d : Sim s d -> Sim (disconnect s) d.
Proof. intros HS. unfold disconnect. destruct (_ && _); auto. apply (sim_same s); auto. Qed.

Lemma sim_take_finished_fetches s d : Sim s d -> Sim (take_finished_fetches s) d.
Proof. intros HS. apply (sim_same s); auto. Qed.

Lemma sim_worker_recv s d : Sim s d -> Sim (worker_recv c s) d.
Proof.
  intros HS. unfold worker_recv. destruct (mq s) as [|[st|st] r]; auto.
  - apply sim_handle_fetch. apply (sim_same s); auto.
  - apply (sim_same s); auto.
Qed.

Lemma sim_update_autofetch s d : Sim s d -> Sim (update_autofetch c s) d.
Proof.
  intros HS. unfold update_autofetch. destruct (autofetch c); auto. destruct (fq s); auto. destruct (fauto s); auto.
  apply sim_handle_fetch. apply (sim_same s); auto.
Qed.

(** ** The base device *)

Definition steps (d : disk V) (t : list (titem V)) (d' : disk V) : Prop :=
  exists es, drun (target c) d es = Some (d', t).

Lemma steps_nil d : steps d [] d.
Proof. exists []. reflexivity. Qed.

Lemma steps_one d e t d' : dstep (target c) d e = Some (d', t) -> steps d t d'.
Proof. intros H. exists [e]. cbn. rewrite H. rewrite app_nil_r. reflexivity. Qed.

Lemma drun_app (d : disk V) es1 es2 d1 t1 d2 t2 :
  drun (target c) d es1 = Some (d1, t1) -> drun (target c) d1 es2 = Some (d2, t2) ->
  drun (target c) d (es1 ++ es2) = Some (d2, t1 ++ t2).
Proof.
  revert d t1. induction es1 as [|e r IH]; intros d t1 H1 H2; cbn in *.
  - injection H1 as <- <-. exact H2.
  - destruct (dstep (target c) d e) as [[da ta]|]; [|discriminate].
    destruct (drun (target c) da r) as [[db tb]|] eqn:E; [|discriminate]. injection H1 as <- <-.
    rewrite (IH _ _ E H2), app_assoc. reflexivity.
Qed.

Lemma steps_trans d t1 d1 t2 d2 : steps d t1 d1 -> steps d1 t2 d2 -> steps d (t1 ++ t2) d2.
Proof. intros [e1 H1] [e2 H2]. exists (e1 ++ e2). eapply drun_app; eauto. Qed.

Lemma touch_rel s n q id off len d ap i : Inv s ->
  ops s n = Some (mk_op (OGuest q id) DBase (KWrite off len d ap)) -> i < len ->
  released (shf s ((off + i) / ssc c)) = true.
Proof. intros HI H Hi. pose proof (i_G_op _ _ _ HI _ _ _ _ _ H) as [_ T]. apply T; auto. Qed.

Lemma sim_base_apply s d n i : Inv s -> Sim s d ->
  exists d', steps d [] d' /\ Sim (base_apply c n i s) d'.
Proof.
  intros HI HS. unfold base_apply.
  assert (Hno : exists d', steps d [] d' /\ Sim s d') by (exists d; split; auto; apply steps_nil).
  destruct (ops s n) as [[o dv k]|] eqn:Eo; auto. destruct dv; auto. destruct k as [off len dd ap| |]; auto.
  destruct (write_value dd i s) as [v|] eqn:Ev; auto.
  destruct ((i <? len) && (off + i <? target c) && negb (ap i)) eqn:E; auto.
  apply andb_true_iff in E. destruct E as [E E3]. apply andb_true_iff in E. destruct E as [E1 E2].
  apply Nat.ltb_lt in E1, E2. apply negb_true_iff in E3.
  destruct o as [q id|st].
  - destruct (s_guest _ _ HS _ _ _ _ _ Eo) as (k' & Hd & Hk). destruct k' as [|off' data' ap'|]; try contradiction.
    destruct Hk as (-> & -> & -> & Hap). cbn [write_value] in Ev.
    pose proof (touch_rel _ _ _ _ _ _ _ _ _ HI Eo E1) as Hrel.
    assert (Hun : d_used d n = true) by (eapply s_opsused; eauto).
    eexists. split.
    { apply (steps_one _ (DApply n i)). cbn [dstep]. rewrite Hd, Ev. destruct (Nat.ltb_spec (off + i) (target c)); [|lia].
      rewrite <- Hap, E3. cbn [andb negb]. reflexivity. }
    destruct HS as [S1 S2 S3 S4 S5 S6 S7 S8 S9 S10 S11 S12]. constructor; auto; cbn [d_ops d_used d_hist d_done]; sred.
    + intros m o H. ucase; [auto|eauto].
    + intros x Hx Hr. unfold upd. destruct (Nat.eqb_spec x (off + i)); [subst; apply hist_push; auto|auto].
    + intros x Hx Hr. unfold upd. destruct (Nat.eqb_spec x (off + i)); [subst; congruence|auto].
    + intros q' r Hr. destruct (S7 q' r Hr) as (k & A & B). exists k. split; auto. unfold upd.
      destruct (Nat.eqb_spec (rq_serial r) n); auto. exfalso.
      destruct (S9 q') as [_ X]. rewrite X in Eo; [discriminate|]. unfold serials. apply in_app_iff. left.
      apply in_map_iff. eauto.
    + intros q' m id' Hr. destruct (S8 q' m id' Hr) as (k & B). unfold upd. destruct (Nat.eqb_spec m n); [|eauto].
      exfalso. subst. destruct (S9 q') as [_ X]. rewrite X in Eo; [discriminate|]. unfold serials. apply in_app_iff. right.
      apply in_map_iff. exists (n, id'). auto.
    + intros q'. destruct (S9 q') as [A B]. split; auto. intros m Hm. unfold upd. destruct (Nat.eqb_spec m n); auto.
      subst. rewrite (B n Hm) in Eo. discriminate.
    + intros m q' id' dv k H. unfold upd in H. unfold upd at 1. destruct (Nat.eqb_spec m n).
      * injection H as <- <- <- <-. eexists. split; [reflexivity|]. cbn. repeat split; auto.
        intros j. unfold upd. destruct (j =? i); auto.
      * destruct (S10 _ _ _ _ _ H) as (k' & A & B). exists k'. split; auto.
    + intros m st dv k H. ucase; [discriminate|]. eauto.
    + intros Hp m o H. unfold upd in H. destruct (Nat.eqb_spec m n).
      * injection H as <-. right. subst. unfold upd. rewrite Nat.eqb_refl. cbn. eauto.
      * destruct (S12 Hp m o H) as [|(dv & k & A)]; auto. right. exists dv, k. unfold upd.
        destruct (Nat.eqb_spec m n); [congruence|auto].
  - exists d. split; [apply steps_nil|].
    destruct (i_F_op _ _ _ HI _ _ _ _ Eo) as [_ (-> & -> & (b & -> & Hb) & Hf)].
    assert (Hu : released (shf s st) = false) by (apply (i_F_unrel _ _ _ HI _ _ Hf); congruence).
    apply (sim_frame s); auto; sred; auto.
    + intros m q id dv k. unfold upd. destruct (Nat.eqb_spec m n); [|tauto]. subst. split; congruence.
    + intros m Hm Ho. unfold upd. destruct (Nat.eqb_spec m n); congruence.
    + intros m st' dv k H. unfold upd in H. destruct (Nat.eqb_spec m n); [subst; eapply s_fetch; eauto|].
      eapply s_fetch; eauto.
    + intros x Hx Hr. unfold upd. destruct (Nat.eqb_spec x (st * ssc c + i)); [|apply (s_rel _ _ HS); auto].
      exfalso. subst. destruct (fetch_sector_in c hsrc WF st i E1) as [A _]. rewrite A in Hr. congruence.
Qed.

Lemma sim_read_sample s d n i : Inv s -> Sim s d ->
  exists d', steps d [] d' /\ Sim (read_sample c n i s) d'.
Proof.
  intros HI HS. unfold read_sample.
  assert (Hno : exists d', steps d [] d' /\ Sim s d') by (exists d; split; auto; apply steps_nil).
  destruct (ops s n) as [[o dv k]|] eqn:Eo; auto. destruct k as [|off len got|]; auto.
  destruct ((i <? len) && (off + i <? dev_size c dv)) eqn:E; auto.
  apply andb_true_iff in E. destruct E as [E1 E2]. apply Nat.ltb_lt in E1, E2.
  assert (Ho : exists q id, o = OGuest q id).
  { destruct o; eauto. destruct (i_F_op _ _ _ HI _ _ _ _ Eo) as [_ []]. }
  destruct Ho as (q & id & ->).
  destruct (s_guest _ _ HS _ _ _ _ _ Eo) as (k' & Hd & Hk).
  assert (Hun : d_used d n = true) by (eapply s_opsused; eauto).
  destruct dv.
  - destruct k' as [off' len' got'| |]; try contradiction. destruct Hk as (-> & -> & Hg). cbn [dev_size dev_cur] in *.
    pose proof (i_G_op _ _ _ HI _ _ _ _ _ Eo) as T. cbn in T. destruct (T i E1) as [Hrel _].
    eexists. split.
    { apply (steps_one _ (DSample n i)). cbn [dstep]. rewrite Hd. destruct (Nat.ltb_spec (off + i) (target c)); [|lia].
      destruct (Nat.ltb_spec i len); [|lia]. cbn [andb]. reflexivity. }
    pose proof (hist_cur _ _ _ (s_rel _ _ HS _ E2 Hrel)) as Hcur.
    destruct HS as [S1 S2 S3 S4 S5 S6 S7 S8 S9 S10 S11 S12]. constructor; auto; cbn [d_ops d_used d_hist d_done set_kind]; sred.
    + intros m o H. ucase; [auto|eauto].
    + intros q' r Hr. destruct (S7 q' r Hr) as (k & A & B). exists k. split; auto. unfold upd.
      destruct (Nat.eqb_spec (rq_serial r) n); auto. exfalso.
      destruct (S9 q') as [_ X]. rewrite X in Eo; [discriminate|]. unfold serials. apply in_app_iff. left.
      apply in_map_iff. eauto.
    + intros q' m id' Hr. destruct (S8 q' m id' Hr) as (k & B). unfold upd. destruct (Nat.eqb_spec m n); [|eauto].
      exfalso. subst. destruct (S9 q') as [_ X]. rewrite X in Eo; [discriminate|]. unfold serials. apply in_app_iff. right.
      apply in_map_iff. exists (n, id'). auto.
    + intros q'. destruct (S9 q') as [A B]. split; auto. intros m Hm. unfold upd. destruct (Nat.eqb_spec m n); auto.
      subst. rewrite (B n Hm) in Eo. discriminate.
    + intros m q' id' dv k H. unfold upd in H. unfold upd at 1. destruct (Nat.eqb_spec m n).
      * injection H as <- <- <- <-. eexists. split; [reflexivity|]. cbn. repeat split; auto.
        intros j. unfold upd. destruct (j =? i); auto.
      * destruct (S10 _ _ _ _ _ H) as (k' & A & B). exists k'. split; auto.
    + intros m st dv k H. ucase; [discriminate|]. eauto.
    + intros Hp m o H. unfold upd in H. destruct (Nat.eqb_spec m n).
      * injection H as <-. right. subst. unfold upd. rewrite Nat.eqb_refl. cbn. eauto.
      * destruct (S12 Hp m o H) as [|(dv & k & A)]; auto. right. exists dv, k. unfold upd.
        destruct (Nat.eqb_spec m n); [congruence|auto].
  - exists d. split; [apply steps_nil|]. cbn [dev_size dev_cur] in *.
    destruct HS as [S1 S2 S3 S4 S5 S6 S7 S8 S9 S10 S11 S12]. constructor; auto; sred.
    + intros q'. destruct (S9 q') as [A B]. split; auto. intros m Hm. unfold upd. destruct (Nat.eqb_spec m n); auto.
      subst. rewrite (B n Hm) in Eo. discriminate.
    + intros m q' id' dv k H. unfold upd in H. destruct (Nat.eqb_spec m n).
      * injection H as <- <- <- <-. subst. exists k'. split; auto. destruct k' as [off' len' got'| |]; try contradiction.
        destruct Hk as (-> & -> & Hg). repeat split; auto; [|apply Hg; auto].
        unfold upd. destruct (Nat.eqb_spec i0 i); [subst; right; auto|]. apply Hg; auto.
      * destruct (S10 _ _ _ _ _ H) as (k'' & A & B). exists k''. split; auto.
    + intros m st dv k H. ucase; [discriminate|]. eauto.
    + intros Hp m o H. destruct (S12 Hp m o H) as [|(dv & k & A)]; auto. right. unfold upd.
      destruct (Nat.eqb_spec m n); [|eauto]. subst. rewrite Eo in A. injection A as <- <- <- <-. eauto.
Qed.

(** Removing a finished guest operation. *)
Lemma sim_remove s d n q id dv k bd dd : Sim s d ->
  ops s n = Some (mk_op (OGuest q id) dv k) ->
  (forall m, m <> n -> bd m = bdone s m /\ dd m = d_done d m) -> bd n = dd n -> dd 0 = true ->
  Sim (set_bdone bd (set_ops (upd (ops s) n None) s)) (mk_disk (upd (d_ops d) n None) (d_used d) (d_hist d) dd).
Proof.
  intros HS Eo Hbd Hn H0.
  destruct (s_guest _ _ HS _ _ _ _ _ Eo) as (k0 & Hd & _).
  destruct HS as [S1 S2 S3 S4 S5 S6 S7 S8 S9 S10 S11 S12].
  constructor; auto; cbn [d_ops d_used d_hist d_done]; sred.
  - tauto.
  - intros m H. destruct (S2 m H). split; auto. destruct (Nat.eq_dec m n); [subst; auto|]. destruct (Hbd m); auto. congruence.
  - intros m H. destruct (Nat.eq_dec m n); [subst; eauto|]. apply S3. destruct (Hbd m); auto. congruence.
  - intros m o H. ucase; [discriminate|eauto].
  - intros q' r Hr. destruct (S7 q' r Hr) as (k' & A & B). exists k'. split; auto. unfold upd.
    destruct (Nat.eqb_spec (rq_serial r) n); auto. exfalso.
    destruct (S9 q') as [_ X]. rewrite X in Eo; [discriminate|]. unfold serials. apply in_app_iff. left.
    apply in_map_iff. eauto.
  - intros q' m id' Hr. destruct (S8 q' m id' Hr) as (k' & B). unfold upd. destruct (Nat.eqb_spec m n); [|eauto].
    exfalso. subst. destruct (S9 q') as [_ X]. rewrite X in Eo; [discriminate|]. unfold serials. apply in_app_iff. right.
    apply in_map_iff. exists (n, id'). auto.
  - intros q'. destruct (S9 q') as [A B]. split; auto. intros m Hm. unfold upd. destruct (Nat.eqb_spec m n); auto.
  - intros m q' id' dv' k' H. unfold upd in H. unfold upd at 1. destruct (Nat.eqb_spec m n); [discriminate|].
    destruct (S10 _ _ _ _ _ H) as (k1 & A & B). exists k1. split; auto.
  - intros m st dv' k' H. ucase; [discriminate|]. eauto.
  - intros Hp m o H. unfold upd in H. unfold upd. destruct (Nat.eqb_spec m n); [discriminate|]. eauto.
Qed.

Lemma sim_trim_both s d snap snap' : Sim s d -> (forall n, d_used d n = true -> snap n = snap' n) ->
  Sim (set_bh (fun x => trim snap (bh s x)) s)
      (mk_disk (d_ops d) (d_used d) (fun x => trim snap' (d_hist d x)) (d_done d)).
Proof.
  intros HS H. destruct HS as [S1 S2 S3 S4 S5 S6 S7 S8 S9 S10 S11 S12].
  constructor; auto; cbn [d_ops d_used d_hist d_done]; sred.
  - intros x Hx Hr. apply hist_trim; auto.
  - intros x Hx Hr. rewrite S6 by auto. apply trim_single.
Qed.

Lemma read_data_ext len (g g' : nat -> option V) : (forall i, i < len -> g i = g' i) -> read_data len g = read_data len g'.
Proof. intros H. apply map_ext_in. intros i Hi. apply in_seq in Hi. apply H. lia. Qed.

Lemma set_bdone_id (s : state V) : set_bdone (bdone s) s = s.
Proof. destruct s; reflexivity. Qed.

Lemma sim_op_done s d n ok : Inv s -> Sim s d ->
  exists d', steps d (snd (op_done c n ok s)) d' /\ Sim (fst (op_done c n ok s)) d'.
Proof.
  intros HI HS. unfold op_done.
  assert (Hno : exists d', steps d (snd (s, @nil (titem V))) d' /\ Sim (fst (s, @nil (titem V))) d') by (exists d; split; auto; apply steps_nil).
  destruct (ops s n) as [[o dv k]|] eqn:Eo; auto.
  destruct (ok && negb (completable c dv k)) eqn:Ec; auto. cbv zeta.
  destruct o as [q id|st]; cbn [fst snd].
  - destruct (s_guest _ _ HS _ _ _ _ _ Eo) as (k' & Hd & Hk).
    assert (Hrem : Sim (set_ops (upd (ops s) n None) s) (finish n d)).
    { pose proof (sim_remove s d n q id dv k (bdone s) (d_done d) HS Eo) as X.
      replace (set_bdone (bdone s) (set_ops (upd (ops s) n None) s)) with (set_ops (upd (ops s) n None) s) in X
        by (destruct s; reflexivity). apply X; auto; [|apply (s_used0 _ _ HS)].
      apply (s_used _ _ HS). eapply s_opsused; eauto. }
    destruct ok.
    + cbn [andb] in Ec. apply negb_false_iff in Ec.
      destruct dv.
      * destruct k as [off len data ap|off len got|snap]; destruct k' as [off' len' got'|off' data' ap'|snap']; try contradiction;
          cbn [completable dev_size] in Ec.
        -- destruct Hk as (-> & -> & -> & Hap). eexists. split.
           { apply (steps_one _ (DDone n true)). cbn [dstep]. rewrite Hd.
             rewrite (in_range_all_ext _ _ _ ap' ap) by (intros; auto). rewrite Ec. reflexivity. }
           cbn [complete_medium]. apply (sim_remove s d n q id _ _ _ _ HS Eo).
           ++ intros m Hm. unfold upd. cbn. destruct (Nat.eqb_spec m n); [congruence|auto].
           ++ unfold upd. rewrite Nat.eqb_refl. auto.
           ++ unfold upd. destruct (0 =? n); auto. apply (s_used0 _ _ HS).
        -- destruct Hk as (-> & -> & Hg). exists (finish n d). split; auto.
           apply (steps_one _ (DDone n true)). cbn [dstep]. rewrite Hd.
           rewrite (in_range_all_ext _ _ _ (fun i => is_some (got' i)) (fun i => is_some (got i)))
             by (intros; rewrite Hg; auto). rewrite Ec.
           rewrite (read_data_ext len got' got) by (intros; rewrite Hg; auto). reflexivity.
        -- destruct Hk as (A & B & C). eexists. split.
           { apply (steps_one _ (DDone n true)). cbn [dstep]. rewrite Hd. reflexivity. }
           cbn [complete_medium]. apply (sim_trim_both _ (finish n d) snap snap' Hrem). exact A.
      * destruct k as [|off len got|]; destruct k' as [off' len' got'| |]; try contradiction.
        destruct Hk as (-> & -> & Hg). cbn [completable dev_size complete_medium op_data] in *.
        pose proof (wf_src_target _ WF) as Wst.
        exists (finish n d). split; auto.
        apply (steps_one _ (DDone n true)). cbn [dstep]. rewrite Hd.
        replace (in_range_all (target c) off len (fun i => is_some (got' i))) with true.
        2:{ symmetry. unfold in_range_all. apply forallb_forall. intros i Hi. apply in_seq in Hi.
            destruct (Hg i) as [_ X]; [lia|]. destruct (off + i <? target c); auto. destruct X as [_ ->]. auto. }
        rewrite (read_data_ext len got' got); auto. intros i Hi. destruct (Hg i Hi) as [X Y].
        destruct (Nat.ltb_spec (off + i) (target c)).
        -- destruct Y as [Y1 ->]. pose proof (in_range_all_spec _ _ _ _ Ec i Hi Y1) as Z. cbv beta in Z. destruct X as [X|[_ X]]; [rewrite X in Z; discriminate Z|congruence].
        -- rewrite Y. destruct X as [->|[X _]]; auto. lia.
    + exists (finish n d). split; auto. apply (steps_one _ (DDone n false)). cbn [dstep]. rewrite Hd. reflexivity.
  - destruct (wdone s); auto. cbn [fst snd]. exists d. split; [apply steps_nil|].
    destruct (i_F_op _ _ _ HI _ _ _ _ Eo) as [-> Hk].
    assert (Hf : exists f, fsts s st = Some f /\ f <> FFetched).
    { destruct k; [exists FFetching|contradiction|exists FFlushing]; split; try congruence; tauto. }
    destruct Hf as (f & Hf & Hf').
    assert (Hu : released (shf s st) = false) by (apply (i_F_unrel _ _ _ HI _ _ Hf); auto).
    assert (Hnu : d_used d n = false) by (eapply s_fetch; eauto).
    assert (HS1 : Sim (if ok then complete_medium n k (set_ops (upd (ops s) n None) s) else set_ops (upd (ops s) n None) s) d).
    { apply (sim_frame s); auto.
      - destruct ok, k; auto.
      - destruct ok, k; auto.
      - destruct ok, k; auto.
      - intros m q id dv kk. replace (ops (if ok then _ else _)) with (upd (ops s) n None) by (destruct ok, k; auto).
        unfold upd. destruct (Nat.eqb_spec m n); [|tauto]. subst. split; congruence.
      - intros m Hm Ho. replace (ops (if ok then _ else _)) with (upd (ops s) n None) by (destruct ok, k; auto).
        unfold upd. destruct (Nat.eqb_spec m n); auto.
      - intros m st' dv kk. replace (ops (if ok then _ else _)) with (upd (ops s) n None) by (destruct ok, k; auto).
        unfold upd. destruct (Nat.eqb_spec m n); [discriminate|]. apply (s_fetch _ _ HS).
      - intros m Hm. destruct ok, k; auto; cbn; unfold upd; destruct (Nat.eqb_spec m n); congruence.
      - intros x. destruct ok, k; auto.
      - intros x Hx Hr. pose proof (s_rel _ _ HS x Hx Hr) as X. destruct ok, k; auto. cbn. apply hist_trim_left; auto.
      - destruct ok, k; auto. }
    assert (HI1 : Inv (if ok then complete_medium n k (set_ops (upd (ops s) n None) s) else set_ops (upd (ops s) n None) s)).
    { pose proof (inv_remove_op c hsrc s n HI) as HI1. destruct ok; auto. apply inv_complete_medium; auto.
      exact (i_N_ops _ _ _ HI _ _ Eo). }
    assert (Es : shf (if ok then complete_medium n k (set_ops (upd (ops s) n None) s) else set_ops (upd (ops s) n None) s) = shf s).
    { destruct ok, k; auto. }
    set (s2 := if ok then _ else _) in *. clearbody s2. unfold tgt_done. destruct ok.
    + destruct (fsts s2 st) as [[]|]; auto.
      * cbv zeta. unfold start_flush. eapply (sim_add_fetch_op s2); [exact HI1|exact HS1|reflexivity..].
      * apply sim_fetch_completed; auto. rewrite Es. auto.
    + apply sim_fetch_completed; auto. rewrite Es. auto.
Qed.

(** ** Guest-side steps *)

Lemma kmatch_issue s d n r dv k k' : kmatch s d dv k k' -> d_used d n = false -> next s <= n ->
  kmatch (set_next (S n) s) (mk_disk (upd (d_ops d) n r) (upd (d_used d) n true) (d_hist d) (d_done d)) dv k k'.
Proof.
  intros H Hn Hlt. unfold kmatch in *. destruct dv, k, k'; auto. destruct H as (A & B & C). sred. cbn [d_used].
  repeat split.
  - intros m Hm. unfold upd in Hm. destruct (Nat.eqb_spec m n); auto. subst.
    destruct (snap n) eqn:E; [apply B in E; lia|]. destruct (snap0 n) eqn:E'; auto. apply C in E'. congruence.
  - intros m Hm. apply B in Hm. lia.
  - intros m Hm. unfold upd. destruct (m =? n); auto.
Qed.

(** Issuing a request on the ordinary disk, before deciding where it goes. *)
Record Pre (s : state V) (d : disk V) (n q id : nat) (k : dkind V) : Prop := {
  p_new : d_ops d n = Some (mk_dop q id k);
  p_ops : ops s n = None;
  p_fresh : forall q', ~ In n (serials s q');
  p_old : Sim s (mk_disk (upd (d_ops d) n None) (d_used d) (d_hist d) (d_done d))
}.

Lemma pre_issue s d q id r : Inv s -> Sim s d ->
  Pre (set_next (S (next s)) s) (dissue (next s) q id r d) (next s) q id (start_kind d r) /\
  steps d [TIssue (next s) q id r] (dissue (next s) q id r d).
Proof.
  intros HI HS. pose proof (unused_next _ _ HS) as Hun.
  assert (Hfr : forall q', ~ In (next s) (serials s q')).
  { intros q' Hi. unfold serials in Hi. rewrite in_app_iff, !in_map_iff in Hi.
    assert (X : exists o, d_ops d (next s) = Some o).
    { destruct Hi as [(r' & <- & Hi)|([n' id'] & <- & Hi)].
      - destruct (s_queue _ _ HS _ _ Hi) as (k & _ & ->). eauto.
      - cbn. destruct (s_fin _ _ HS _ _ _ Hi) as (k & ->). eauto. }
    destruct X as (o & X). pose proof (s_opsused _ _ HS _ _ X). congruence. }
  split.
  2:{ apply (steps_one _ (DIssue (next s) q id r)). cbn. rewrite Hun. reflexivity. }
  constructor; auto.
  - cbn. unfold upd. rewrite Nat.eqb_refl. auto.
  - cbn. apply (ops_next c hsrc); auto.
  - destruct HS as [S1 S2 S3 S4 S5 S6 S7 S8 S9 S10 S11 S12].
    constructor; auto; cbn [d_ops d_used d_hist d_done dissue]; sred.
    + destruct S1. split; auto. unfold upd. destruct (0 =? next s); auto.
    + intros n H. unfold upd in H. destruct (Nat.eqb_spec n (next s)).
      * subst. split; [lia|]. destruct (bdone s (next s)) eqn:E.
        -- pose proof (i_N_bd _ _ _ HI _ E). lia.
        -- destruct (d_done d (next s)) eqn:E'; auto. apply S3 in E'. congruence.
      * destruct (S2 n H). split; auto; lia.
    + intros n H. unfold upd. destruct (n =? next s); auto.
    + intros n o H. unfold upd in H. unfold upd. destruct (Nat.eqb_spec n (next s)); auto. eauto.
    + intros x Hx Hr. eapply hist_used; eauto. intros n H. unfold upd. destruct (n =? next s); auto.
    + intros q' r' Hr. destruct (S7 q' r' Hr) as (k & A & B). exists k. split; auto. unfold upd.
      destruct (Nat.eqb_spec (rq_serial r') (next s)); auto. apply S4 in B. congruence.
    + intros q' n id' Hr. destruct (S8 q' n id' Hr) as (k & B). exists k. unfold upd.
      destruct (Nat.eqb_spec n (next s)); auto. apply S4 in B. congruence.
    + intros n q' id' dv k H. destruct (S10 _ _ _ _ _ H) as (k' & A & B). exists k'. split.
      * unfold upd. destruct (Nat.eqb_spec n (next s)); auto. apply S4 in A. congruence.
      * exact (kmatch_issue s d (next s) (Some (mk_dop q id (start_kind d r))) dv k k' B Hun (le_n _)).
    + intros n st dv k H. unfold upd. destruct (Nat.eqb_spec n (next s)); [|eauto].
      subst. pose proof (i_N_ops _ _ _ HI _ _ H). lia.
    + intros Hp n o H. unfold upd in H. destruct (Nat.eqb_spec n (next s)); [discriminate|]. 
      destruct (Nat.eqb_spec n (next s)); [congruence|]. eauto.
Qed.

(** A placed request: the relation holds again. *)
Lemma pre_place s s' d n q id k : Pre s d n q id k ->
  d_used d n = true -> next s' = next s -> bdone s' = bdone s -> shf s' = shf s -> bh s' = bh s ->
  panic s = false ->
  ((* issued *) (exists dv kk, chq s' = chq s /\ chfin s' = chfin s /\
      ops s' = upd (ops s) n (Some (mk_op (OGuest q id) dv kk)) /\ kmatch s' d dv kk k) \/
   (* queued *) (exists r, chq s' = upd (chq s) q (chq s q ++ [r]) /\ chfin s' = chfin s /\ ops s' = ops s /\
      rq_serial r = n /\ rq_id r = id /\ fresh_kind (rq_req r) = Some k) \/
   (* failed *) (chq s' = chq s /\ chfin s' = upd (chfin s) q (chfin s q ++ [(n, id)]) /\ ops s' = ops s) \/
   (* panicked *) (chq s' = chq s /\ chfin s' = chfin s /\ ops s' = ops s /\ panic s' = true)) ->
  Sim s' d.
Proof.
  intros [Pn Po Pf HS] Hun En Eb Es Eh Ep Hcase.
  assert (Hd : forall m, m <> n -> upd (d_ops d) n None m = d_ops d m).
  { intros m Hm. unfold upd. destruct (Nat.eqb_spec m n); congruence. }
  assert (Hne : forall m o, upd (d_ops d) n None m = Some o -> m <> n /\ d_ops d m = Some o).
  { intros m o H. unfold upd in H. destruct (Nat.eqb_spec m n); [discriminate|auto]. }
  destruct HS as [S1 S2 S3 S4 S5 S6 S7 S8 S9 S10 S11 S12]. cbn [d_ops d_used d_hist d_done] in *.
  assert (Q : forall q' r, In r (chq s' q') -> exists k0, fresh_kind (rq_req r) = Some k0 /\
              d_ops d (rq_serial r) = Some (mk_dop q' (rq_id r) k0)).
  { assert (Q0 : forall q' r, In r (chq s q') -> exists k0, fresh_kind (rq_req r) = Some k0 /\
              d_ops d (rq_serial r) = Some (mk_dop q' (rq_id r) k0)).
    { intros q' r Hr. destruct (S7 q' r Hr) as (k0 & A & B). apply Hne in B. exists k0. tauto. }
    destruct Hcase as [(dv & kk & -> & _)|[(r0 & -> & _ & _ & Er1 & Er2 & Er3)|[(-> & _)|(-> & _)]]]; auto.
    intros q' r Hr. unfold upd in Hr. destruct (Nat.eqb_spec q' q); auto. subst q'.
    rewrite in_app_iff in Hr. destruct Hr as [Hr|[<-|[]]]; auto. exists k. rewrite Er1, Er2. auto. }
  assert (F : forall q' m id', In (m, id') (chfin s' q') -> exists k0, d_ops d m = Some (mk_dop q' id' k0)).
  { assert (F0 : forall q' m id', In (m, id') (chfin s q') -> exists k0, d_ops d m = Some (mk_dop q' id' k0)).
    { intros q' m id' Hr. destruct (S8 q' m id' Hr) as (k0 & B). apply Hne in B. exists k0. tauto. }
    destruct Hcase as [(dv & kk & _ & -> & _)|[(r0 & _ & -> & _)|[(_ & -> & _)|(_ & -> & _)]]]; auto.
    intros q' m id' Hr. unfold upd in Hr. destruct (Nat.eqb_spec q' q); auto. subst q'.
    rewrite in_app_iff in Hr. destruct Hr as [Hr|[Hr|[]]]; auto. injection Hr as <- <-. exists k. auto. }
  (* serials *)
  assert (Ser : forall q' m, In m (serials s' q') -> In m (serials s q') \/ m = n /\ q' = q /\ ops s' = ops s).
  { intros q' m Hm. unfold serials in *.
    destruct Hcase as [(dv & kk & E1 & E2 & _)|[(r0 & E1 & E2 & E3 & Er1 & _)|[(E1 & E2 & E3)|(E1 & E2 & _)]]];
      rewrite E1, E2 in Hm; auto.
    - unfold upd in Hm. destruct (Nat.eqb_spec q' q); auto. subst q'. rewrite map_app, !in_app_iff in Hm.
      rewrite in_app_iff. cbn in Hm. intuition.
    - unfold upd in Hm. destruct (Nat.eqb_spec q' q); auto. subst q'. rewrite map_app, !in_app_iff in Hm.
      rewrite in_app_iff. cbn in Hm. intuition. }
  assert (Ser2 : forall q' m, In m (serials s q') -> In m (serials s' q')).
  { intros q' m Hm. unfold serials in *.
    destruct Hcase as [(dv & kk & E1 & E2 & _)|[(r0 & E1 & E2 & E3 & Er1 & _)|[(E1 & E2 & E3)|(E1 & E2 & _)]]];
      rewrite E1, E2; auto; unfold upd; destruct (Nat.eqb_spec q' q); auto; subst q';
      rewrite map_app, !in_app_iff; rewrite in_app_iff in Hm; tauto. }
  assert (O : forall m, m <> n -> ops s' m = ops s m).
  { intros m Hm. destruct Hcase as [(dv & kk & _ & _ & -> & _)|[(r0 & _ & _ & -> & _)|[(_ & _ & ->)|(_ & _ & -> & _)]]]; auto.
    unfold upd. destruct (Nat.eqb_spec m n); congruence. }
  constructor; auto.
  - rewrite En, Eb. auto.
  - intros m o H. destruct (Nat.eq_dec m n); [subst; auto|]. apply (S4 m o). rewrite Hd; auto.
  - rewrite Es, Eh. auto.
  - rewrite Es. auto.
  - intros q'. destruct (S9 q') as [A B]. split.
    + unfold serials in *.
      destruct Hcase as [(dv & kk & -> & -> & _)|[(r0 & -> & -> & E3 & Er1 & _)|[(-> & -> & E3)|(-> & -> & _)]]]; auto;
        unfold upd; destruct (Nat.eqb_spec q' q); auto; subst q'; specialize (Pf q); unfold serials in Pf.
      * rewrite map_app. cbn [map]. rewrite Er1. apply NoDup_Add with (a := n) (l := map (@rq_serial V) (chq s q) ++ map fst (chfin s q)); auto.
        rewrite <- app_assoc. cbn. apply Add_app.
      * rewrite map_app. cbn [map fst]. rewrite app_assoc. apply nodup_snoc; auto.
    + intros m Hm. destruct (Ser q' m Hm) as [Hm'|(-> & _ & ->)]; auto. rewrite O; [auto|].
      intros ->. exact (Pf _ Hm').
  - intros m q' id' dv kk H. destruct (Nat.eq_dec m n).
    + subst m. destruct Hcase as [(dv0 & k0 & _ & _ & E & Hk)|[(r0 & _ & _ & E & _)|[(_ & _ & E)|(_ & _ & E & _)]]];
        rewrite E in H; try congruence. unfold upd in H. rewrite Nat.eqb_refl in H. injection H as <- <- <- <-.
      exists k. auto.
    + rewrite O in H by auto. destruct (S10 _ _ _ _ _ H) as (k' & A & B). exists k'. apply Hne in A. split; [tauto|].
      unfold kmatch in *. destruct dv, kk, k'; auto; rewrite ?En; auto.
  - intros m st dv kk H. destruct (Nat.eq_dec m n).
    + subst m. exfalso. destruct Hcase as [(dv0 & k0 & _ & _ & E & Hk)|[(r0 & _ & _ & E & _)|[(_ & _ & E)|(_ & _ & E & _)]]];
        rewrite E in H; try congruence. unfold upd in H. rewrite Nat.eqb_refl in H. discriminate.
    + rewrite O in H by auto. eauto.
  - intros Hp m o H. destruct (Nat.eq_dec m n).
    + subst m. rewrite Pn in H. injection H as <-. cbn [d_ch d_id].
      destruct Hcase as [(dv0 & k0 & _ & _ & E & Hk)|[(r0 & E1 & E2 & E & Er1 & _)|[(E1 & E2 & E)|(_ & _ & E & Hpp)]]].
      * right. exists dv0, k0. rewrite E. unfold upd. rewrite Nat.eqb_refl. auto.
      * left. unfold serials. rewrite E1. unfold upd. rewrite Nat.eqb_refl, map_app, !in_app_iff. cbn. auto.
      * left. unfold serials. rewrite E2. unfold upd. rewrite Nat.eqb_refl, map_app, !in_app_iff. cbn. auto.
      * congruence.
    + rewrite <- Hd in H by auto. destruct (S12 Ep m o H) as [A|(dv & kk & A)]; auto.
      right. exists dv, kk. rewrite O; auto.
Qed.

(** The ordinary disk samples every sector of a read. *)
Definition sampled (d : disk V) (off len k : nat) : nat -> option V :=
  fun i => if (i <? k) && (i <? len) && (off + i <? target c) then cur (d_hist d (off + i)) else None.

Lemma sample_upto d n q id off len k : d_ops d n = Some (mk_dop q id (DRead off len (fun _ => None))) ->
  exists d' got', steps d [] d' /\ d_used d' = d_used d /\ d_hist d' = d_hist d /\ d_done d' = d_done d /\
    (forall m, m <> n -> d_ops d' m = d_ops d m) /\
    d_ops d' n = Some (mk_dop q id (DRead off len got')) /\ forall i, got' i = sampled d off len k i.
Proof.
  intros Hd. induction k as [|k IH].
  - exists d, (fun _ => None). repeat split; auto. apply steps_nil.
  - destruct IH as (d1 & got & H1 & Hu & Hh & Hdn & Ho & Hn & Hg).
    destruct ((k <? len) && (off + k <? target c)) eqn:E.
    + apply andb_true_iff in E. destruct E as [E1 E2].
      exists (set_kind n (mk_dop q id (DRead off len got)) (DRead off len (upd got k (cur (d_hist d1 (off + k))))) d1),
             (upd got k (cur (d_hist d1 (off + k)))).
      split; [|cbn [set_kind d_used d_hist d_done d_ops d_ch d_id]; repeat split; auto].
      * replace (@nil (titem V)) with (@nil (titem V) ++ []) by auto. eapply steps_trans; [exact H1|].
        apply (steps_one _ (DSample n k)). cbn [dstep]. rewrite Hn, E1, E2. reflexivity.
      * intros m Hm. unfold upd. destruct (Nat.eqb_spec m n); [congruence|auto].
      * unfold upd. rewrite Nat.eqb_refl. auto.
      * intros i. unfold sampled, upd. destruct (Nat.eqb_spec i k).
        -- subst. rewrite Hh, E1, E2. destruct (Nat.ltb_spec k (S k)); [|lia]. auto.
        -- rewrite Hg. unfold sampled. replace (i <? S k) with (i <? k); auto.
           destruct (Nat.ltb_spec i k), (Nat.ltb_spec i (S k)); auto; lia.
    + exists d1, got. repeat split; auto. intros i. rewrite Hg. unfold sampled.
      destruct (Nat.eq_dec i k).
      * subst. rewrite <- !andb_assoc, E, !andb_false_r. auto.
      * replace (i <? S k) with (i <? k); auto.
        destruct (Nat.ltb_spec i k), (Nat.ltb_spec i (S k)); auto; lia.
Qed.

Lemma pre_steps s d d' n q id k k' : Pre s d n q id k ->
  d_used d' = d_used d -> d_hist d' = d_hist d -> d_done d' = d_done d ->
  (forall m, m <> n -> d_ops d' m = d_ops d m) -> d_ops d' n = Some (mk_dop q id k') -> Pre s d' n q id k'.
Proof.
  intros [A B C D] Hu Hh Hd Ho Hn. constructor; auto.
  assert (Hx : forall m, upd (d_ops d') n None m = upd (d_ops d) n None m).
  { intros m. unfold upd. destruct (Nat.eqb_spec m n); auto. }
  rewrite Hu, Hh, Hd. destruct D as [S1 S2 S3 S4 S5 S6 S7 S8 S9 S10 S11 S12].
  constructor; auto; cbn [d_ops d_used d_hist d_done] in *.
  - intros m o. rewrite Hx. eauto.
  - intros q' r. rewrite Hx. eauto.
  - intros q' m id'. rewrite Hx. eauto.
  - intros m q' id' dv kk H. rewrite Hx. eauto.
  - intros Hp m o. rewrite Hx. eauto.
Qed.

Lemma ssf_frame q sts (s : state V) : exists cr l, fst (start_stripe_fetches c q sts s) = set_chreq cr (set_mq (mq s ++ l) s).
Proof. destruct (ssf_spec c q sts s) as (cr & l & E & _). eauto. Qed.
Lemma ssw_frame sts (s : state V) : exists l, fst (start_stripe_set_written c sts s) = set_mq (mq s ++ l) s.
Proof. destruct (ssw_spec c sts s) as (l & E & _). eauto. Qed.

(** Case analysis helpers for a request that is queued, failed or panics. *)
Lemma place_queue_write s d n q id off data : Pre s d n q id (DWrite off data (fun _ => false)) -> d_used d n = true ->
  panic s = false -> Sim (queue_write c n q id off data s) d.
Proof.
  intros HP Hu Hp. unfold queue_write.
  destruct (ssf_frame q (stripes_of c off (length data)) s) as (cr & l & E).
  destruct (start_stripe_fetches c q (stripes_of c off (length data)) s) as [s1 r1]. cbn [fst] in E. subst s1.
  assert (Hq : forall l', Sim (enqueue q (mk_rwreq n id (RWrite off data)) (set_mq l' (set_chreq cr (set_mq (mq s ++ l) s)))) d).
  { intros l'. apply (pre_place s _ d n q id _ HP); auto. right. left. exists (mk_rwreq n id (RWrite off data)). repeat split. }
  destruct r1.
  - destruct (track c).
    + destruct (ssw_frame (stripes_of c off (length data)) (set_chreq cr (set_mq (mq s ++ l) s))) as (l2 & E2).
      destruct (start_stripe_set_written _ _ _) as [s2 r2]. cbn [fst] in E2. subst s2.
      destruct r2; [apply Hq| |].
      * apply (pre_place s _ d n q id _ HP); auto 12.
      * apply (pre_place s _ d n q id _ HP); auto 12.
    + exact (Hq (mq s ++ l)).
  - apply (pre_place s _ d n q id _ HP); auto 12.
  - apply (pre_place s _ d n q id _ HP); auto 12.
Qed.

Lemma sim_add_req s d q id r : Inv s -> Sim s d -> panic s = false ->
  exists d', steps d [TIssue (next s) q id r] d' /\ Sim (add_req c q id r s) d'.
Proof.
  intros HI HS Hp. destruct (pre_issue s d q id r HI HS) as [HP Hst].
  assert (Hu : d_used (dissue (next s) q id r d) (next s) = true) by (cbn; unfold upd; rewrite Nat.eqb_refl; auto).
  set (d1 := dissue (next s) q id r d) in *.
  assert (Hfl : forall dv k, r = RFlush -> dv = DBase -> k = KFlush (bdone s) ->
     kmatch (set_next (S (next s)) s) d1 dv k (start_kind d r)).
  { intros dv k -> -> ->. cbn. repeat split.
    - intros n Hn. unfold upd in Hn. destruct (Nat.eqb_spec n (next s)).
      + subst. destruct (bdone s (next s)) eqn:E; [pose proof (i_N_bd _ _ _ HI _ E); lia|].
        destruct (d_done d (next s)) eqn:E'; auto. apply (s_done _ _ HS) in E'. rewrite (unused_next _ _ HS) in E'. discriminate.
      + apply (s_used _ _ HS); auto.
    - intros n Hn. pose proof (i_N_bd _ _ _ HI _ Hn). lia.
    - intros n Hn. unfold upd. destruct (n =? next s); auto. apply (s_done _ _ HS); auto. }
  pose proof (inv_next _ _ s HI) as HI'.
  assert (Eshf : forall st, shf (set_next (S (next s)) s) st = shf s st) by auto.
  assert (Hhist : d_hist d1 = d_hist d) by auto.
  unfold add_req. clearbody d1. set (n := next s) in *. set (s' := set_next (S n) s) in *.
  assert (Hp' : panic s' = false) by auto.
  destruct r as [off len|off data|]; cbn [start_kind] in HP.
  - unfold add_read. destruct (fetch_status c s' (stripes_of c off len)) eqn:E.
    + destruct ((stripe_first c off =? stripe_last c off len) && has_image c) eqn:Ei.
      * apply andb_true_iff in Ei. destruct Ei as [E1 Ehas]. apply Nat.eqb_eq in E1.
        destruct (fetch_status_pending c s' _ E) as (st & Hin & Hstn & Hnf).
        assert (Hall : forall i, i < len -> (off + i) / ssc c = st).
        { intros i Hi. pose proof (stripes_of_in c hsrc WF off len i Hi) as Hii. unfold stripes_of in Hin, Hii.
          apply in_seq in Hin. apply in_seq in Hii. lia. }
        assert (Hsrc : hsrc st = true).
        { pose proof (proj1 (i_M_shf _ _ _ HI' st) Hstn) as X. rewrite Hnf in X. auto. }
        assert (Hsec : forall i, i < len -> off + i < target c ->
                  off + i < src c /\ d_hist d (off + i) = [(0, image c (off + i))]).
        { intros i Hi Ht. split.
          - destruct (i_cover _ _ _ HI' (off + i)) as [?|[_ ?]]; auto; try (rewrite Hall; auto); try congruence. rewrite Hnf. auto.
          - apply (s_unrel _ _ HS); auto. rewrite Hall by auto. rewrite <- Eshf, Hnf. auto. }
        destruct (sample_upto d1 n q id off len len (p_new _ _ _ _ _ _ HP)) as (d2 & got & H2 & G1 & G2 & G3 & G4 & G5 & G6).
        exists d2. split.
        { rewrite <- (app_nil_r [_]). eapply steps_trans; eauto. }
        pose proof (pre_steps _ _ d2 _ _ _ _ (DRead off len got) HP G1 G2 G3 G4 G5) as HP2.
        apply (pre_place s' _ d2 n q id _ HP2); auto; [congruence|].
        left. exists DImage, (KRead off len (fun _ => None)). repeat split; auto.
        rewrite G6. unfold sampled. rewrite Hhist. destruct (Nat.ltb_spec i len); [|lia]. cbn [andb].
        destruct (Nat.ltb_spec (off + i) (target c)); auto. destruct (Hsec i) as [X ->]; auto.
      * exists d1. split; auto. destruct (ssf_frame q (stripes_of c off len) s') as (cr & l & E').
        destruct (start_stripe_fetches c q (stripes_of c off len) s') as [s1 r1]. cbn [fst] in E'. subst s1.
        apply (pre_place s' _ d1 n q id _ HP); auto; destruct r1; auto 10.
        right. left. exists (mk_rwreq n id (RRead off len)). repeat split.
    + exists d1. split; auto. apply (pre_place s' _ d1 n q id _ HP); auto 12.
      left. exists DBase, (KRead off len (fun _ => None)). repeat split.
    + exists d1. split; auto. apply (pre_place s' _ d1 n q id _ HP); auto 12.
    + exists d1. split; auto. apply (pre_place s' _ d1 n q id _ HP); auto 12.
  - exists d1. split; auto. unfold add_write.
    assert (Hi : Sim (issue n q id DBase (RWrite off data) s') d1).
    { apply (pre_place s' _ d1 n q id _ HP); auto 12.
      left. exists DBase, (KWrite off (length data) (WData data) (fun _ => false)). repeat split. }
    destruct (fetch_status c s' (stripes_of c off (length data))).
    + apply place_queue_write; auto.
    + destruct (track c); auto. destruct (stripes_written c s' (stripes_of c off (length data))) as [[|]|]; auto.
      * apply place_queue_write; auto.
      * apply (pre_place s' _ d1 n q id _ HP); auto 12.
    + apply (pre_place s' _ d1 n q id _ HP); auto 12.
    + apply (pre_place s' _ d1 n q id _ HP); auto 12.
  - exists d1. split; auto. apply (pre_place s' _ d1 n q id _ HP); auto 12.
    left. exists DBase, (KFlush (bdone s)). repeat split; auto; apply (Hfl DBase (KFlush (bdone s)) eq_refl eq_refl eq_refl).
Qed.

(** Queued requests have serials without operation. *)
Lemma queue_serials s d q r : Sim s d -> In r (chq s q) -> rq_serial r < next s /\ ops s (rq_serial r) = None.
Proof.
  intros HS Hr. destruct (s_queue _ _ HS _ _ Hr) as (k & _ & H). split.
  - apply (used_lt _ _ _ HS). eapply s_opsused; eauto.
  - apply (s_nodup _ _ HS q). unfold serials. apply in_app_iff. left. apply in_map_iff. eauto.
Qed.

(** Taking the front request off its queue. *)
Lemma pre_front s d q r l : Sim s d -> chq s q = r :: l ->
  exists k, fresh_kind (rq_req r) = Some k /\
  Pre (set_chq (upd (chq s) q l) s) d (rq_serial r) q (rq_id r) k /\ d_used d (rq_serial r) = true.
Proof.
  intros HS E. assert (Hr : In r (chq s q)) by (rewrite E; now left).
  destruct (s_queue _ _ HS _ _ Hr) as (k & Hk & Hd). destruct (queue_serials _ _ _ _ HS Hr) as [_ Ho].
  exists k. split; auto. split; [|eapply s_opsused; eauto].
  assert (Hsub : forall q' m, In m (serials (set_chq (upd (chq s) q l) s) q') -> In m (serials s q')).
  { intros q' m. unfold serials. cbn. unfold upd. destruct (Nat.eqb_spec q' q); auto. subst. rewrite E. cbn. tauto. }
  assert (Hfr : forall q', ~ In (rq_serial r) (serials (set_chq (upd (chq s) q l) s) q')).
  { intros q' Hi. destruct (Nat.eq_dec q' q).
    - subst. destruct (s_nodup _ _ HS q) as [Hnd _]. unfold serials in *. rewrite E in Hnd. cbn in Hnd, Hi.
      inversion_clear Hnd as [|? ? H1 H2]. unfold upd in Hi. rewrite Nat.eqb_refl in Hi. auto.
    - apply Hsub in Hi. unfold serials in Hi. rewrite in_app_iff, !in_map_iff in Hi.
      destruct Hi as [(r' & Er & Hi)|([n' id'] & Er & Hi)].
      + destruct (s_queue _ _ HS _ _ Hi) as (k' & _ & X). rewrite Er in X. congruence.
      + cbn in Er. subst n'. destruct (s_fin _ _ HS _ _ _ Hi) as (k' & X). congruence. }
  constructor; auto.
  assert (Hkeep : forall n', n' <> rq_serial r -> upd (d_ops d) (rq_serial r) None n' = d_ops d n').
  { intros n' Hn. unfold upd. destruct (Nat.eqb_spec n' (rq_serial r)); congruence. }
  destruct HS as [S1 S2 S3 S4 S5 S6 S7 S8 S9 S10 S11 S12].
  constructor; auto; cbn [d_ops d_used d_hist d_done]; sred.
  - intros m o H. unfold upd in H. destruct (Nat.eqb_spec m (rq_serial r)); [discriminate|eauto].
  - intros q' r' Hr'. assert (X : In r' (chq s q')).
    { unfold upd in Hr'. destruct (Nat.eqb_spec q' q); auto. subst. rewrite E. now right. }
    destruct (S7 q' r' X) as (k' & A & B). exists k'. split; auto. rewrite Hkeep; auto.
    intros Eq. apply (Hfr q'). unfold serials. cbn. apply in_app_iff. left. apply in_map_iff. eauto.
  - intros q' m id' Hi. destruct (S8 _ _ _ Hi) as (k' & X). exists k'. rewrite Hkeep; auto.
    intros ->. apply (Hfr q'). unfold serials. cbn. apply in_app_iff. right. apply in_map_iff. exists (rq_serial r, id'). auto.
  - intros q'. destruct (S9 q') as [A B]. split; [|intros m Hm; apply B; apply Hsub; auto].
    unfold serials in *. cbn. unfold upd. destruct (Nat.eqb_spec q' q); auto. subst. rewrite E in A. cbn in A. inversion A; auto.
  - intros m q' id' dv kk H. destruct (S10 _ _ _ _ _ H) as (k' & A & B). exists k'. split; auto.
    rewrite Hkeep; auto. intros ->. congruence.
  - intros Hp m o H. unfold upd in H. destruct (Nat.eqb_spec m (rq_serial r)); [discriminate|].
    destruct (S12 Hp m o H) as [A|A]; auto. left. unfold serials in *. cbn. unfold upd.
    destruct (Nat.eqb_spec (d_ch o) q) as [e|]; auto. rewrite e, E in A. cbn in A. rewrite e. destruct A; [congruence|auto].
Qed.

Lemma sim_process_front s d q : Inv s -> Sim s d -> panic s = false -> Sim (process_front c q s) d.
Proof.
  intros HI HS Hp. unfold process_front. destruct (chq s q) as [|r l] eqn:E; auto.
  destruct (pre_front s d q r l HS E) as (k & Hk & HP & Hu).
  set (s1 := set_chq (upd (chq s) q l) s) in *. assert (Hp1 : panic s1 = false) by auto.
  assert (Hgo : Sim (set_chreq (upd (chreq s) q (remove_all (chreq s q) (req_stripes c (rq_req r))))
              (issue (rq_serial r) q (rq_id r) DBase (rq_req r) s1)) d).
  { apply (pre_place s1 _ d _ _ _ _ HP); auto. left. exists DBase, (start_op_kind (rq_req r) s1). repeat split.
    destruct (rq_req r); cbn in Hk |- *; try discriminate; injection Hk as <-; repeat split. }
  assert (Hpan : Sim (set_panic true s) d).
  { apply (sim_same s); auto; discriminate. }
  destruct (fetch_status _ _ _); auto.
  - destruct (track c && is_write (rq_req r)); auto. destruct (stripes_written _ _ _) as [[|]|]; auto.
  - apply (pre_place s1 _ d _ _ _ _ HP); auto 12.
Qed.

Lemma done_all (l : list (nat * nat)) : forall d q, NoDup (map fst l) ->
  (forall n id, In (n, id) l -> exists k, d_ops d n = Some (mk_dop q id k)) ->
  exists d', steps d (map (fun p => TDone (fst p) q (snd p) false []) l) d' /\
    d_used d' = d_used d /\ d_hist d' = d_hist d /\ d_done d' = d_done d /\
    forall m, d_ops d' m = if existsb (Nat.eqb m) (map fst l) then None else d_ops d m.
Proof.
  induction l as [|[n id] l IH]; intros d q Hnd H.
  - exists d. repeat split; auto. apply steps_nil.
  - cbn in Hnd. inversion_clear Hnd as [|? ? Hn Hnd']. destruct (H n id) as (k & Hk); [now left|].
    destruct (IH (finish n d) q Hnd') as (d' & A & B & C & D & E).
    { intros n' id' Hi. destruct (H n' id') as (k' & Hk'); [now right|]. exists k'. cbn. unfold upd.
      destruct (Nat.eqb_spec n' n); auto. subst. exfalso. apply Hn. apply in_map_iff. exists (n, id'). auto. }
    exists d'. repeat split; auto.
    + cbn [map fst snd]. change (TDone n q id false [] :: ?x) with ([TDone n q id false []] ++ x).
      eapply steps_trans; [|exact A]. apply (steps_one _ (DDone n false)). cbn [dstep]. rewrite Hk. reflexivity.
    + intros m. rewrite E. cbn. unfold upd. destruct (Nat.eqb_spec m n); cbn; auto.
      destruct (existsb _ _); auto.
Qed.

Lemma sim_take_finished s d q : Sim s d ->
  exists d', steps d (snd (take_finished q s)) d' /\ Sim (fst (take_finished q s)) d'.
Proof.
  intros HS. unfold take_finished. cbn [fst snd].
  assert (Hnd : NoDup (map fst (chfin s q))).
  { destruct (s_nodup _ _ HS q) as [A _]. unfold serials in A. revert A. generalize (map (@rq_serial V) (chq s q)).
    intros l. induction l; cbn; auto. inversion 1; auto. }
  destruct (done_all (chfin s q) d q Hnd (s_fin _ _ HS q)) as (d' & A & B & C & D & E).
  exists d'. split; auto.
  assert (Ein : forall m, existsb (Nat.eqb m) (map fst (chfin s q)) = true <-> In m (map fst (chfin s q))).
  { intros m. rewrite existsb_exists. split; [intros (x & Hx & Ex); apply Nat.eqb_eq in Ex; subst; auto|].
    intros Hm. exists m. rewrite Nat.eqb_refl. auto. }
  assert (Hold : forall m o, d_ops d' m = Some o -> d_ops d m = Some o /\ ~ In m (map fst (chfin s q))).
  { intros m o H. rewrite E in H. destruct (existsb _ _) eqn:X; [discriminate|]. split; auto. rewrite <- Ein. congruence. }
  assert (Hnew : forall m, ~ In m (map fst (chfin s q)) -> d_ops d' m = d_ops d m).
  { intros m H. rewrite E. rewrite <- Ein in H. destruct (existsb _ _); auto. congruence. }
  assert (Hsub : forall q' m, In m (serials (set_chfin (upd (chfin s) q []) s) q') -> In m (serials s q')).
  { intros q' m. unfold serials. cbn. unfold upd. rewrite !in_app_iff. destruct (Nat.eqb_spec q' q); cbn; tauto. }
  destruct HS as [S1 S2 S3 S4 S5 S6 S7 S8 S9 S10 S11 S12].
  constructor; rewrite ?B, ?C, ?D; auto; sred.
  - intros m o H. apply Hold in H. destruct H. eauto.
  - intros q' r Hr. destruct (S7 q' r Hr) as (k & X & Y). exists k. split; auto. rewrite Hnew; auto.
    intros Hi. pose proof Hi as Hi2. apply in_map_iff in Hi2. destruct Hi2 as ([n' id'] & En & Hi2). cbn in En. subst n'.
    destruct (S8 _ _ _ Hi2) as (k' & Z). rewrite Y in Z. injection Z as -> _ _.
    destruct (S9 q) as [Hx _]. unfold serials in Hx.
    apply in_split in Hr. destruct Hr as (l1 & l2 & El). rewrite El, map_app in Hx. cbn in Hx.
    rewrite <- app_assoc in Hx. apply NoDup_remove_2 in Hx. apply Hx. rewrite !in_app_iff. auto.
  - intros q' m id' Hi. unfold upd in Hi. destruct (Nat.eqb_spec q' q); [destruct Hi|].
    destruct (S8 _ _ _ Hi) as (k & X). exists k. rewrite Hnew; auto. intros Hi'.
    apply in_map_iff in Hi'. destruct Hi' as ([n' id''] & En & Hi2). cbn in En. subst n'.
    destruct (S8 _ _ _ Hi2) as (k' & Z). congruence.
  - intros q'. destruct (S9 q') as [X Y]. split; [|intros m Hm; apply Y, Hsub, Hm].
    unfold serials in *. cbn. unfold upd. destruct (Nat.eqb_spec q' q); auto. cbn. rewrite app_nil_r.
    revert X. generalize (map fst (chfin s q')). intros l2. generalize (map (@rq_serial V) (chq s q')). intros l1 X.
    induction l1; [constructor|]. cbn in X. inversion_clear X. constructor; auto. rewrite in_app_iff in H. tauto.
  - intros m q' id' dv kk H. destruct (S10 _ _ _ _ _ H) as (k & X & Y). exists k. split.
    + rewrite Hnew; auto. intros Hi. destruct (S9 q) as [_ Z]. rewrite Z in H; [discriminate|]. unfold serials. apply in_app_iff. auto.
    + unfold kmatch in *. destruct dv, kk, k; auto; rewrite ?B; auto.
  - intros Hp m o H. apply Hold in H. destruct H as [H Hni]. destruct (S12 Hp m o H) as [X|X]; auto. left.
    unfold serials in *. cbn. unfold upd. rewrite in_app_iff in *. destruct (Nat.eqb_spec (d_ch o) q); auto.
    destruct X as [X|X]; auto. exfalso. apply Hni. congruence.
Qed.

(** ** Startup and crashes *)

Lemma boot_shf n hist mhist bd md st : st < nst c ->
  shf (boot c n hist mhist bd md) st = initial_fetch_state (loaded_headers c mhist st).
Proof. intros H. unfold boot. cbv zeta. sred. destruct (Nat.ltb_spec st (nst c)); [auto|lia]. Qed.

Lemma loaded_in mhist st : mhist (group_of c st) <> [] ->
  exists e, In e (mhist (group_of c st)) /\ loaded_headers c mhist st = snd e st.
Proof. unfold loaded_headers. destruct (mhist (group_of c st)) as [|e l]; [congruence|]. exists e. cbn; auto. Qed.

(** After a crash a released stripe is still released; and a stripe that has
    become released has its fetched data durably in place. *)
Lemma crash_released pb pm s st : Inv s -> released (shf s st) = true -> released (shf (crash c pb pm s) st) = true.
Proof.
  intros HI Hr. destruct (Nat.ltb_spec st (nst c)) as [Hst|Hst].
  2:{ unfold crash, boot. cbv zeta. sred. destruct (Nat.ltb_spec st (nst c)); [lia|auto]. }
  unfold crash. rewrite boot_shf by auto.
  destruct (loaded_in (fun g => crashed (mh s g) (pm g)) st) as (e & Hi & ->).
  { apply crashed_nonempty. exact (i_M_nonempty _ _ _ HI _). }
  destruct (crashed_in _ _ _ Hi) as (e0 & Hi0 & ->). cbn [snd].
  unfold initial_fetch_state. rewrite (proj2 (i_M_src _ _ _ HI st Hst) _ Hi0).
  pose proof (proj1 (i_M_shf _ _ _ HI st) Hst) as Hs. destruct (shf s st) eqn:Es; try discriminate; rewrite Hs; auto.
  rewrite (proj2 (i_M_ackF _ _ _ HI st Es) _ Hi0). auto.
Qed.

Lemma crash_newly pb pm s st : Inv s -> released (shf s st) = false -> released (shf (crash c pb pm s) st) = true ->
  durable c s st.
Proof.
  intros HI Hr Hr'. destruct (Nat.ltb_spec st (nst c)) as [Hst|Hst].
  2:{ rewrite (proj2 (i_M_shf _ _ _ HI st) Hst) in Hr. discriminate. }
  unfold crash in Hr'. rewrite boot_shf in Hr' by auto.
  destruct (loaded_in (fun g => crashed (mh s g) (pm g)) st) as (e & Hi & El).
  { apply crashed_nonempty. exact (i_M_nonempty _ _ _ HI _). }
  rewrite El in Hr'. destruct (crashed_in _ _ _ Hi) as (e0 & Hi0 & ->). cbn [snd] in Hr'.
  unfold initial_fetch_state in Hr'. rewrite (proj2 (i_M_src _ _ _ HI st Hst) _ Hi0) in Hr'.
  pose proof (proj1 (i_M_shf _ _ _ HI st) Hst) as Hs.
  assert (Hh : hsrc st = true) by (destruct (shf s st); auto; discriminate). rewrite Hh in Hr'.
  destruct (has_flag FLAG_FETCHED (snd e0 st)) eqn:Ef; [|discriminate].
  destruct (i_M_safe _ _ _ HI st Hst) as [_ [X|X]]; [right; eauto|congruence|].
  destruct (i_D_fetched _ _ _ HI st X) as [Y|Y]; [congruence|auto].
Qed.

Lemma sim_crash s d pb pm : Inv s -> Sim s d ->
  exists d', steps d [TCrash] d' /\ Sim (crash c pb pm s) d'.
Proof.
  intros HI HS. eexists. split.
  { apply (steps_one _ (DCrash (fun x => sim_pick (bh s x) (pb x)))). cbn [dstep]. reflexivity. }
  pose proof (fun st => crash_released pb pm s st HI) as Hr1.
  pose proof (fun st => crash_newly pb pm s st HI) as Hr2.
  destruct HS as [S1 S2 S3 S4 S5 S6 S7 S8 S9 S10 S11 S12].
  constructor; auto; cbn [d_ops d_used d_hist d_done]; unfold crash, boot in *; cbv zeta in *; sred; try discriminate.
  - intros x Hx Hr. destruct (released (shf s (x / ssc c))) eqn:E.
    + apply hist_crash; [tauto|]. apply S5; auto.
    + rewrite S6 by auto. destruct (Hr2 _ E Hr x (conj eq_refl Hx)) as (w & ->).
      unfold crashed, sim_pick. exists [], 0, 0, (image c x), []. repeat split.
      * destruct (nth_error _ (pb x)) as [e|] eqn:En; auto. destruct (pb x) as [|[]]; cbn in En; try discriminate. injection En as <-. auto.
      * destruct (pb x <? _) eqn:El; auto. destruct (pb x) as [|[]]; auto.
      * intros ? [].
  - intros x Hx Hr. destruct (released (shf s (x / ssc c))) eqn:E.
    + rewrite Hr1 in Hr by auto. discriminate.
    + rewrite S6 by auto. unfold crashed, sim_pick. destruct (nth_error _ _) as [e|] eqn:En; auto.
      match type of En with nth_error _ ?k = _ => destruct k as [|[]] end; cbn in En; try discriminate. injection En as <-. auto.
  - intros q r [].
  - intros q n id [].
  - intros q. split; [constructor|]. intros n [].
Qed.

Notation initial_contents := (initial_contents c).
Lemma sim_init base h : Sim (init c base h) (new_disk (initial_contents base h)).
Proof.
  assert (E : forall st, released (shf (init c base h) st) =
    negb ((st <? nst c) && has_flag FLAG_HAS_SOURCE (h st) && negb (has_flag FLAG_FETCHED (h st)))).
  { intros st. unfold init, boot. cbv zeta. sred. destruct (st <? nst c); auto. unfold initial_fetch_state, loaded_headers. cbn [snd].
    destruct (has_flag FLAG_HAS_SOURCE (h st)); auto. destruct (has_flag FLAG_FETCHED (h st)); auto. }
  constructor; cbn [new_disk d_ops d_used d_hist d_done]; try discriminate; auto.
  - intros n Hn. apply Nat.eqb_eq in Hn. subst. split; auto; cbn; lia.
  - intros x Hx Hr. rewrite E in Hr. apply negb_true_iff in Hr. unfold initial_contents. rewrite Hr.
    exists [], 0, 0, (base x), []. repeat split; auto; intros ? [].
  - intros x Hx Hr. rewrite E in Hr. apply negb_false_iff in Hr. unfold initial_contents. rewrite Hr. auto.
  - intros q r [].
  - intros q n id [].
  - intros q. split; [constructor|]. intros n [].
Qed.

(** ** All steps *)

Lemma inv_step s d e : Inv s -> Sim s d -> Inv (fst (step c s e)).
Proof.
  intros HI HS. unfold step.
  assert (W : forall f, (Inv s -> Inv (f s)) -> Inv (worker f s)) by (intros f Hf; unfold worker; destruct (wdone s); auto).
  destruct e; try (destruct (panic s) eqn:Hp; [exact HI|]); cbn [fst]; auto using inv_add_req, inv_wdone.
  - apply inv_process_front; auto. intros r Hr. eapply queue_serials; eauto.
  - apply inv_take_finished; auto.
  - apply inv_op_done; auto.
  - apply inv_base_apply; auto.
  - apply inv_read_sample; auto.
  - apply inv_scribble; auto.
  - apply inv_meta_apply; auto.
  - apply W. apply inv_worker_recv.
  - apply W. apply inv_update_autofetch.
  - apply W. apply inv_start_fetch.
  - apply W. apply inv_src_done; auto.
  - apply W. apply inv_take_finished_fetches.
  - apply W. apply inv_start_meta_write; auto.
  - apply W. apply inv_meta_done; auto.
  - apply W. apply inv_disconnect.
  - apply inv_crash; auto.
Qed.

Lemma sim_step s d e : Inv s -> Sim s d ->
  exists d', steps d (snd (step c s e)) d' /\ Sim (fst (step c s e)) d'.
Proof.
  intros HI HS. unfold step.
  assert (N : forall s', Sim s' d -> exists d', steps d (snd (s', @nil (titem V))) d' /\ Sim (fst (s', @nil (titem V))) d').
  { intros s' H. exists d. split; auto. apply steps_nil. }
  assert (W : forall f, (Sim (f s) d) -> Sim (worker f s) d) by (intros f Hf; unfold worker; destruct (wdone s); auto).
  destruct e; try (destruct (panic s) eqn:Hp; [apply N; exact HS|]).
  - apply sim_add_req; auto.
  - apply N. apply sim_process_front; auto.
  - apply sim_take_finished; auto.
  - apply sim_op_done; auto.
  - apply sim_base_apply; auto.
  - apply sim_read_sample; auto.
  - apply N. apply sim_scribble; auto.
  - apply N. apply sim_meta_apply; auto.
  - apply N, W, sim_worker_recv; auto.
  - apply N. apply (sim_same s); auto.
  - apply N, W, sim_update_autofetch; auto.
  - apply N, W, sim_start_fetch; auto.
  - apply N, W, sim_src_done; auto.
  - apply N, W, sim_take_finished_fetches; auto.
  - apply N, W, sim_start_meta_write; auto.
  - apply N, W, sim_meta_done; auto.
  - apply N, W, sim_disconnect; auto.
  - apply sim_crash; auto.
Qed.

Lemma sim_run es : forall s d, Inv s -> Sim s d ->
  exists d', steps d (snd (run c s es)) d' /\ Sim (fst (run c s es)) d' /\ Inv (fst (run c s es)).
Proof.
  induction es as [|e es IH]; intros s d HI HS.
  - exists d. cbn [run fst snd]. split; [apply steps_nil|auto].
  - cbn [run]. destruct (sim_step s d e HI HS) as (d1 & A & B). pose proof (inv_step s d e HI HS) as HI1.
    destruct (step c s e) as [s1 t1]. cbn [fst snd] in *. destruct (IH s1 d1 HI1 B) as (d2 & A2 & B2 & C2).
    destruct (run c s1 es) as [s2 t2]. cbn [fst snd] in *. exists d2. split; [eapply steps_trans; eauto|auto].
Qed.

End Sim.
