(** Steps of executions without failures other than retried fetches: the possible
    changes of the state, and the invariant that nothing asked for is lost.  Used
    in LazyProgress.v. *)
From Coq Require Import List Arith NArith Bool Lia ZifyBool ZifyNat.
Import ListNotations.
From Verif Require Import Base BaseFacts DiskSpec LazyState MetadataModel LazyModel LazySpec LazyInv LazyTac LazyInvGuest LazyInvFetch LazyInvMeta LazySim LazyInv2 LazyReach LazyRun.

Section Live.
Context {V : Type}.
Variable c : cfg V.
Variable hsrc : nat -> bool.
Hypothesis WF : wf c.
Notation Inv := (Inv c hsrc).
Notation Ok := (Ok c hsrc).
Notation fine := (fine c).

(** An event that reports no failure other than of a fetch. *)
Definition good_event (s : state V) (e : event V) : Prop :=
  match e with
  | EAdd _ _ r => in_bounds c r
  | EDone n ok => ok = true \/ guest_op s n = false
  | EWMetaDone n ok => ok = true
  | EWShutdown | ECrash _ _ => False
  | _ => True
  end.

Definition no_failed (s : state V) : Prop := forall st, shf s st <> Failed.

(** ** The changes of state *)

(** The fetch of [st], using buffer [b], failed and is queued again. *)
Definition retry (st b : nat) (s : state V) : state V :=
  set_fsts (upd (fsts s) st (Some FQueued)) (set_fq (fq s ++ [st]) (set_fret (upd (fret s) st (S (fret s st)))
    (set_fuse (upd (fuse s) b false) (set_favail (favail s ++ [b]) (set_fbuf (upd (fbuf s) st None) s))))).
(** ... or is complete. *)
Definition finish (st b : nat) (s : state V) : state V :=
  set_ffin (ffin s ++ [(st, true)]) (set_fret (upd (fret s) st 0) (set_fsts (upd (fsts s) st (Some FFetched))
    (set_fuse (upd (fuse s) b false) (set_favail (favail s ++ [b]) (set_fbuf (upd (fbuf s) st None) s))))).
Definition take (st b : nat) (q av : list nat) (s : state V) : state V :=
  set_fbuf (upd (fbuf s) st (Some b)) (set_fuse (upd (fuse s) b true) (set_favail av (set_fq q s))).

Definition same_kind (k k' : opkind V) : Prop :=
  match k, k' with
  | KWrite off len d _, KWrite off' len' d' _ => off' = off /\ len' = len /\ d' = d
  | KRead off len _, KRead off' len' _ => off' = off /\ len' = len
  | _, _ => False
  end.

Record asked (s s' : state V) (q : nat) (r : req V) : Prop := {
  as_mq : exists l, mq s' = mq s ++ l;
  as_req : forall st, In st (req_stripes c r) -> released (shf s st) = true \/ chreq s q st = true \/ In (BFetch st) (mq s');
  as_chreq : forall q' st, chreq s' q' st = true -> chreq s q' st = true \/ In (BFetch st) (mq s');
  as_wr : track c = true -> is_write r = true -> forall st, In st (req_stripes c r) -> shw s st = true \/ In (BSetWritten st) (mq s')
}.

Inductive GS (s : state V) : event V -> state V -> Prop :=
| GS_same e : GS s e s
| GS_issue q id r dv k s' : guest_frame s s' -> next s' = S (next s) -> ops s' = upd (ops s) (next s) (Some (mk_op (OGuest q id) dv k)) ->
    chq s' = chq s -> chreq s' = chreq s -> mq s' = mq s -> GS s (EAdd q id r) s'
| GS_queue q id r s' : guest_frame s s' -> next s' = S (next s) -> ops s' = ops s ->
    chq s' = upd (chq s) q (chq s q ++ [mk_rwreq (next s) id r]) -> asked s s' q r -> GS s (EAdd q id r) s'
| GS_front q r l k s' : chq s q = r :: l -> guest_frame s s' ->
    ops s' = upd (ops s) (rq_serial r) (Some (mk_op (OGuest q (rq_id r)) DBase k)) -> chq s' = upd (chq s) q l ->
    (forall q' st, chreq s' q' st = true -> chreq s q' st = true) -> mq s' = mq s -> next s' = next s -> GS s (EFront q) s'
| GS_fin q f : GS s (ETakeFinished q) (set_chfin f s)
| GS_done n q id dv k : ops s n = Some (mk_op (OGuest q id) dv k) ->
    GS s (EDone n true) (complete_medium n k (set_ops (upd (ops s) n None) s))
| GS_written n st off len d ap : ops s n = Some (mk_op (OFetch st) DBase (KWrite off len d ap)) ->
    GS s (EDone n true) (set_fsts (upd (fsts s) st (Some FFlushing))
      (start_flush st (set_bdone (upd (bdone s) n true) (set_ops (upd (ops s) n None) s))))
| GS_flushed n st b snap : ops s n = Some (mk_op (OFetch st) DBase (KFlush snap)) -> fbuf s st = Some b ->
    GS s (EDone n true) (finish st b (set_bh (fun x => trim snap (bh s x)) (set_ops (upd (ops s) n None) s)))
| GS_opfail n st b k : ops s n = Some (mk_op (OFetch st) DBase k) -> fbuf s st = Some b -> fret s st < MAX_FETCH_RETRIES ->
    GS s (EDone n false) (retry st b (set_ops (upd (ops s) n None) s))
| GS_touch e n i o dv k k' bh' : e = EApply n i \/ e = ESample n i -> ops s n = Some (mk_op o dv k) -> same_kind k k' ->
    GS s e (set_ops (upd (ops s) n (Some (mk_op o dv k'))) (set_bh bh' s))
| GS_scribble n i v bufs' : GS s (ESrcScribble n i v) (set_bufs bufs' s)
| GS_mapply n st g b mh' : mops s n = Some (MWrite st g b false) ->
    GS s (EMApply n) (set_mops (upd (mops s) n (Some (MWrite st g b true))) (set_mh mh' s))
| GS_recv st l : mq s = BFetch st :: l -> st < nst c -> released (shf s st) = false -> fsts s st = None ->
    GS s EWRecv (set_fsts (upd (fsts s) st (Some FQueued)) (set_fq (fq s ++ [st]) (set_mq l s)))
| GS_drop st l : mq s = BFetch st :: l -> released (shf s st) = true \/ fsts s st <> None -> GS s EWRecv (set_mq l s)
| GS_recvw st l : mq s = BSetWritten st :: l -> GS s EWRecv (set_mqueue (mqueue s ++ [(st, SetWritten)]) (set_mq l s))
| GS_auto st l : autofetch c = true -> fq s = [] -> fauto s = st :: l -> st < nst c -> released (shf s st) = false -> fsts s st = None ->
    GS s EWAutofetch (set_fsts (upd (fsts s) st (Some FQueued)) (set_fq (fq s ++ [st]) (set_fauto l s)))
| GS_autodrop st l : autofetch c = true -> fq s = [] -> fauto s = st :: l -> released (shf s st) = true \/ fsts s st <> None ->
    GS s EWAutofetch (set_fauto l s)
| GS_start a st q b av : fq s = st :: q -> favail s = b :: av -> st < nst c ->
    GS s (EWStartFetch a) (set_fsts (upd (fsts s) st (Some FFetching))
      (set_sops (upd (sops s) (next s) (Some (st, b))) (set_next (S (next s)) (take st b q av s))))
| GS_reject a st q b av : fq s = st :: q -> favail s = b :: av -> fret s st < MAX_FETCH_RETRIES ->
    GS s (EWStartFetch a) (retry st b (take st b q av s))
| GS_sdone n st b b' off len bufs' : sops s n = Some (st, b) ->
    GS s (EWSrcDone n true) (set_ops (upd (ops s) (next s) (Some (mk_op (OFetch st) DBase (KWrite off len (WBuf b') (fun _ => false)))))
      (set_next (S (next s)) (set_bufs bufs' (set_sops (upd (sops s) n None) s))))
| GS_sfail n st b : sops s n = Some (st, b) -> fbuf s st = Some b -> fret s st < MAX_FETCH_RETRIES ->
    GS s (EWSrcDone n false) (retry st b (set_sops (upd (sops s) n None) s))
| GS_takefin : GS s EWTakeFinished (take_finished_fetches s)
| GS_skip st k q : mqueue s = (st, k) :: q -> st < nst c -> has_flag (mask_of k) (hdrs s st) = true ->
    ~ In (group_of c st) (msec s) -> GS s EWStartWrite (set_mqueue q s)
| GS_update st k q b av s' : mqueue s = (st, k) :: q -> mavail s = b :: av -> ~ In (group_of c st) (msec s) -> st < nst c ->
    s' = set_mupd (upd (mupd s) st (Some (mk_hupd b MWriting (N.lor (hdrs s st) (mask_of k)) (mask_of k) (group_of c st))))
      (set_msec (group_of c st :: msec s) (set_mops (upd (mops s) (next s) (Some (MWrite st (group_of c st) b false))) (set_next (S (next s))
        (set_mbufs (upd (mbufs s) b (upd (hdrs s) st (N.lor (hdrs s st) (mask_of k)))) (set_hdrs (upd (hdrs s) st (N.lor (hdrs s st) (mask_of k)))
          (set_muse (upd (muse s) b true) (set_mavail av (set_mqueue q s)))))))) ->
    GS s EWStartWrite s'
| GS_mwritten n st g b u : mops s n = Some (MWrite st g b true) -> mupd s st = Some u -> u_stage u = MWriting -> u_buf u = b ->
    GS s (EWMetaDone n true)
      (set_mupd (upd (mupd s) st (Some (mk_hupd (u_buf u) MFlushing (u_header u) (u_mask u) (u_sector u))))
        (set_mops (upd (upd (mops s) n None) (next s) (Some (MFlush st (upd (mdone s) n true)))) (set_next (S (next s))
          (set_muse (upd (muse s) (u_buf u) false) (set_mavail (mavail s ++ [u_buf u]) (set_mdone (upd (mdone s) n true) (set_mops (upd (mops s) n None) s)))))))
| GS_mflushed n st snap u s1 : mops s n = Some (MFlush st snap) -> mupd s st = Some u -> u_stage u = MFlushing -> st < nst c ->
    s1 = set_mupd (upd (mupd s) st None) (set_msec (remove_sector (u_sector u) (msec s))
           (set_mh (fun g => trim snap (mh s g)) (set_mops (upd (mops s) n None) s))) ->
    GS s (EWMetaDone n true) (set_stripe_header c st (u_header u) s1)
| GS_disc : GS s EWDisconnect (disconnect s).

(** Sending the requests of a queued request. *)
Lemma ssf_asks q sts : forall s s', wdone s = false -> start_stripe_fetches c q sts s = (s', SendOk) ->
  (exists cr l, s' = set_chreq cr (set_mq (mq s ++ l) s)) /\
  (forall st, In st sts -> released (shf s st) = true \/ chreq s q st = true \/ In (BFetch st) (mq s')) /\
  (forall q' st, chreq s' q' st = true -> chreq s q' st = true \/ In (BFetch st) (mq s')).
Proof.
  induction sts as [|st r IH]; intros s s' Hw; cbn [start_stripe_fetches].
  - intros E. injection E as <-. split; [|split; [intros ? []|auto]]. exists (chreq s), []. rewrite app_nil_r. destruct s; reflexivity.
  - destruct (Nat.ltb_spec st (nst c)); [|discriminate].
    destruct (negb (released (shf s st)) && negb (chreq s q st)) eqn:Eb.
    + rewrite Hw. intros E. apply IH in E; [|exact Hw]. destruct E as ((cr & l & E) & A & B). sred.
      assert (Hi : In (BFetch st) (mq s')) by (subst s'; sred; rewrite !in_app_iff; cbn; auto).
      split; [|split].
      * exists cr, (BFetch st :: l). subst s'. rewrite <- app_assoc. reflexivity.
      * intros x [<-|Hx]; auto. destruct (A x Hx) as [X|[X|X]]; auto. unfold upd at 1 in X. rewrite Nat.eqb_refl in X.
        unfold upd in X. destruct (Nat.eqb_spec x st); [subst; auto|auto].
      * intros q' x Hx. destruct (B q' x Hx) as [X|X]; auto. unfold upd at 1 in X. destruct (Nat.eqb_spec q' q); auto. subst.
        unfold upd in X. destruct (Nat.eqb_spec x st); [subst; auto|auto].
    + intros E. apply IH in E; [|exact Hw]. destruct E as (A & B & C). split; [auto|split; [|auto]].
      intros x [<-|Hx]; auto. apply andb_false_iff in Eb. rewrite !negb_false_iff in Eb. destruct Eb; auto.
Qed.

Lemma ssw_asks sts : forall (s s' : state V), wdone s = false -> start_stripe_set_written c sts s = (s', SendOk) ->
  (exists l, s' = set_mq (mq s ++ l) s) /\
  (forall st, In st sts -> shw s st = true \/ In (BSetWritten st) (mq s')).
Proof.
  induction sts as [|st r IH]; intros s s' Hw; cbn [start_stripe_set_written].
  - intros E. injection E as <-. split; [|intros ? []]. exists []. rewrite app_nil_r. destruct s; reflexivity.
  - destruct (Nat.ltb_spec st (nst c)); [|discriminate]. destruct (shw s st) eqn:Es.
    + intros E. apply IH in E; [|exact Hw]. destruct E as (A & B). split; auto. intros x [<-|Hx]; auto.
    + rewrite Hw. intros E. apply IH in E; [|exact Hw]. destruct E as ((l & E) & B). sred. split.
      * exists (BSetWritten st :: l). subst s'. rewrite <- app_assoc. reflexivity.
      * intros x [<-|Hx]; auto. right. subst s'. sred. rewrite !in_app_iff. cbn. auto.
Qed.

Lemma ssf_no_err q sts : forall s, wdone s = false -> snd (start_stripe_fetches c q sts s) <> SendErr.
Proof.
  induction sts as [|st r IH]; intros s Hw; cbn [start_stripe_fetches]; [discriminate|].
  destruct (_ <? _); [|discriminate]. destruct (_ && _); [rewrite Hw|]; apply IH; auto.
Qed.
Lemma ssw_no_err sts : forall (s : state V), wdone s = false -> snd (start_stripe_set_written c sts s) <> SendErr.
Proof.
  induction sts as [|st r IH]; intros s Hw; cbn [start_stripe_set_written]; [discriminate|].
  destruct (_ <? _); [|discriminate]. destruct (shw s st); [apply IH; auto|]. rewrite Hw. apply IH; auto.
Qed.
Lemma status_no_failed s sts : no_failed s -> fetch_status c s sts <> SFailed.
Proof.
  intros Hn. induction sts as [|st r IH]; cbn [fetch_status]; [discriminate|]. destruct (_ <? _); [|discriminate].
  pose proof (Hn st). destruct (shf s st); congruence.
Qed.

Lemma asked_fetch q off len (s s' : state V) : wdone s = false ->
  start_stripe_fetches c q (stripes_of c off len) s = (s', SendOk) -> asked s s' q (RRead off len).
Proof.
  intros Hw E. apply ssf_asks in E; [|exact Hw]. destruct E as ((cr & l & ->) & B & C). constructor; sred; auto.
  - exists l. reflexivity.
  - intros _ X. discriminate.
Qed.

Lemma gs_add q id r s : Ok s -> fine s -> wdone s = false -> no_failed s -> in_bounds c r -> GS s (EAdd q id r) (add_req c q id r s).
Proof.
  intros HO HF Hw Hn Hb.
  assert (G : guest_frame s (add_req c q id r s)) by (apply gf_add_req; intros m Hm; eapply ops_next; [apply HO|exact Hm]).
  assert (Hr : forall st, In st (req_stripes c r) -> r <> RFlush -> st < nst c).
  { intros st Hs Hne. unfold req_stripes in Hs. destruct r; [| |congruence]; cbn [req_extent fst snd in_bounds] in *; eapply (fits_stripes c hsrc WF); [| |exact Hs| | |exact Hs]; lia. }
  assert (Iss : forall dv, add_req c q id r s = issue (next s) q id dv r (set_next (S (next s)) s) -> GS s (EAdd q id r) (add_req c q id r s)).
  { intros dv E. rewrite E in *. eapply GS_issue; [exact G|reflexivity|reflexivity|reflexivity|reflexivity|reflexivity]. }
  unfold add_req in *. cbv zeta in *. set (s0 := set_next (S (next s)) s) in *.
  assert (Hw0 : wdone s0 = false) by exact Hw. assert (Hn0 : no_failed s0) by exact Hn.
  assert (Qw : forall off data, r = RWrite off data -> guest_frame s (queue_write c (next s) q id off data s0) ->
     GS s (EAdd q id r) (queue_write c (next s) q id off data s0)).
  { intros off data -> G'. unfold queue_write in *. cbv zeta in *.
    pose proof (ssf_no_panic c q (stripes_of c off (length data)) s0) as A1. pose proof (ssf_no_err q (stripes_of c off (length data)) s0 Hw0) as A2.
    destruct (start_stripe_fetches _ _ _ _) as [s1 r1] eqn:Es. cbn [snd] in A1, A2.
    assert (A1' : r1 <> SendPanic) by (apply A1; intros; apply Hr; [auto|discriminate]).
    destruct r1; [|congruence|congruence]. apply ssf_asks in Es; [|exact Hw0]. destruct Es as ((cr & l & E1) & B1 & C1). unfold s0 in E1.
    destruct (track c) eqn:Et.
    - assert (Hw1 : wdone s1 = false) by (rewrite E1; exact Hw).
      pose proof (ssw_no_panic c (stripes_of c off (length data)) s1) as A3. pose proof (ssw_no_err (stripes_of c off (length data)) s1 Hw1) as A4.
      destruct (start_stripe_set_written _ _ _) as [s2 r2] eqn:Es2. cbn [snd] in A3, A4.
      assert (A3' : r2 <> SendPanic) by (apply A3; intros; apply Hr; [auto|discriminate]).
      destruct r2; [|congruence|congruence]. apply ssw_asks in Es2; [|exact Hw1]. destruct Es2 as ((l2 & E2) & B2).
      assert (E3 : s2 = set_chreq cr (set_mq ((mq s ++ l) ++ l2) (set_next (S (next s)) s))) by (rewrite E2, E1; reflexivity).
      assert (Em : mq s1 = mq s ++ l) by (rewrite E1; reflexivity). assert (Ec : chreq s1 = cr) by (rewrite E1; reflexivity).
      eapply GS_queue; auto; try (rewrite E3; reflexivity).
      constructor; unfold enqueue; sred; rewrite E3; sred.
      + exists (l ++ l2). now rewrite app_assoc.
      + intros st Hs. destruct (B1 st Hs) as [X|[X|X]]; auto. rewrite Em in X. right. right. rewrite in_app_iff. auto.
      + intros q' st Hs. destruct (C1 q' st) as [X|X]; [rewrite Ec; auto|auto|]. rewrite Em in X. right. rewrite in_app_iff. auto.
      + intros _ _ st Hs. destruct (B2 st Hs) as [X|X]; [left; rewrite E1 in X; exact X|]. right. rewrite E3 in X. exact X.
    - assert (Em : mq s1 = mq s ++ l) by (rewrite E1; reflexivity). assert (Ec : chreq s1 = cr) by (rewrite E1; reflexivity).
      eapply GS_queue; auto; try (rewrite E1; reflexivity).
      constructor; unfold enqueue; sred.
      + exists l. auto.
      + auto.
      + auto.
      + congruence. }
  destruct r as [off len|off data|].
  - unfold add_read in *. cbv zeta in *.
    pose proof (status_no_panic c s0 (stripes_of c off len)) as P1. pose proof (status_no_failed s0 (stripes_of c off len) Hn0) as P2.
    assert (P1' : fetch_status c s0 (stripes_of c off len) <> SPanic) by (apply P1; intros; apply Hr; [auto|discriminate]).
    destruct (fetch_status _ _ _); try congruence; [|eapply Iss; reflexivity].
    destruct (_ && _); [eapply Iss; reflexivity|].
    pose proof (ssf_no_panic c q (stripes_of c off len) s0) as A1. pose proof (ssf_no_err q (stripes_of c off len) s0 Hw0) as A2.
    destruct (start_stripe_fetches _ _ _ _) as [s1 r1] eqn:Es. cbn [snd] in A1, A2.
    assert (A1' : r1 <> SendPanic) by (apply A1; intros; apply Hr; [auto|discriminate]).
    destruct r1; [|congruence|congruence]. pose proof (asked_fetch _ _ _ _ _ Hw0 Es) as HA. apply ssf_asks in Es; [|exact Hw0]. destruct Es as ((cr & l & E1) & _).
    eapply GS_queue; auto; try (rewrite E1; reflexivity). destruct HA as [X1 X2 X3 X4]. constructor; auto.
  - unfold add_write in *. cbv zeta in *.
    pose proof (status_no_panic c s0 (stripes_of c off (length data))) as P1. pose proof (status_no_failed s0 (stripes_of c off (length data)) Hn0) as P2.
    assert (P1' : fetch_status c s0 (stripes_of c off (length data)) <> SPanic) by (apply P1; intros; apply Hr; [auto|discriminate]).
    destruct (fetch_status _ _ _); try congruence; [apply Qw; auto|].
    destruct (track c); [|eapply Iss; reflexivity].
    pose proof (written_no_panic c s0 (stripes_of c off (length data))) as P3.
    assert (P3' : stripes_written c s0 (stripes_of c off (length data)) <> None) by (apply P3; intros; apply Hr; [auto|discriminate]).
    destruct (stripes_written _ _ _) as [[|]|]; [eapply Iss; reflexivity|apply Qw; auto|congruence].
  - eapply Iss. reflexivity.
Qed.

Lemma gs_front q s : Ok s -> fine s -> no_failed s -> GS s (EFront q) (process_front c q s).
Proof.
  intros HO [Hp HQ] Hn. pose proof HO as [HI [d HS] _].
  assert (G : guest_frame s (process_front c q s)) by (apply gf_process_front; intros r Hr; eapply queue_serials; eauto).
  unfold process_front in *. destruct (chq s q) as [|r l] eqn:Eq; [apply GS_same|]. cbv zeta in *.
  assert (Hr : In r (chq s q)) by (rewrite Eq; now left). destruct (HQ q r Hr) as [Hf Hne].
  assert (Hb : forall st, In st (req_stripes c (rq_req r)) -> st < nst c).
  { intros st Hs. unfold req_stripes in Hs. destruct (rq_req r); [| |congruence]; cbn [req_extent fst snd req_fits] in *; eapply (fits_stripes c hsrc WF); [| |exact Hs| | |exact Hs]; lia. }
  pose proof (status_no_panic c s _ Hb) as P1. pose proof (status_no_failed s (req_stripes c (rq_req r)) Hn) as P2. pose proof (written_no_panic c s _ Hb) as P3.
  match type of G with context[issue ?a ?b ?cc ?dd ?ee ?ff] => set (go := set_chreq _ (issue a b cc dd ee ff)) in * end.
  assert (Go : guest_frame s go -> GS s (EFront q) go).
  { intros G'. eapply (GS_front s q r l); [exact Eq|exact G'|reflexivity|reflexivity| |reflexivity|reflexivity].
    intros q' st. unfold go. sred. unfold upd. destruct (Nat.eqb_spec q' q) as [->|]; auto. unfold remove_all. destruct (existsb _ _); [discriminate|auto]. }
  destruct (fetch_status _ _ _); try congruence; [apply GS_same|]. destruct (_ && _); auto. destruct (stripes_written _ _ _) as [[|]|]; [auto|apply GS_same|congruence].
Qed.

Lemma completed_false st b s : fbuf s st = Some b -> fuse s b = true -> b < MAX_CONCURRENT_FETCHES -> st < nst c ->
  no_failed (fetch_completed c st false s) -> fret s st < MAX_FETCH_RETRIES /\ fetch_completed c st false s = retry st b s.
Proof. clear hsrc WF.
  intros Hb Hu Hl Hst Hn. unfold fetch_completed in *. rewrite Hb in *. unfold return_fbuf in *. sred. rewrite Hu in *.
  destruct (Nat.ltb_spec b MAX_CONCURRENT_FETCHES); [|lia]. cbn [andb] in *. sred.
  destruct (Nat.ltb_spec (fret s st) MAX_FETCH_RETRIES); [split; auto|]. destruct (Nat.ltb_spec st (nst c)); [|lia].
  exfalso. apply (Hn st). sred. unfold upd. now rewrite Nat.eqb_refl.
Qed.
Lemma completed_true st b s : fbuf s st = Some b -> fuse s b = true -> b < MAX_CONCURRENT_FETCHES ->
  fetch_completed c st true s = finish st b s.
Proof.
  intros Hb Hu Hl. unfold fetch_completed. rewrite Hb. unfold return_fbuf. sred. rewrite Hu.
  destruct (Nat.ltb_spec b MAX_CONCURRENT_FETCHES); [|lia]. reflexivity.
Qed.

Theorem gs_step s e : Ok s -> fine s -> wdone s = false -> no_failed s -> good_event s e -> no_failed (fst (step c s e)) ->
  GS s e (fst (step c s e)).
Proof.
  intros HO HF Hw Hn Hg Hn'. pose proof HO as [HI [d HS] H2]. pose proof HF as [Hp _].
  unfold step in *. destruct e as [q id r|q|q|n ok|n i|n i|n i v|n| | | |a|n ok| | |n ok| |pb pm];
    try (exfalso; exact Hg); rewrite Hp in *; cbn [fst] in *; unfold worker in *; try rewrite Hw in *; cbn [good_event] in Hg.
  - apply gs_add; auto.
  - apply gs_front; auto.
  - apply GS_fin.
  - destruct (ops s n) as [[[q id|st] dv k]|] eqn:Eo.
    + assert (ok = true) as ->. { destruct Hg as [X|X]; auto. unfold guest_op in X. rewrite Eo in X. discriminate. }
      unfold op_done. rewrite Eo. destruct (_ && _); [apply GS_same|]. cbn [fst]. eapply GS_done; eauto.
    + destruct (i_F_op _ _ _ HI _ _ _ _ Eo) as [-> Hk]. destruct (fetch_op_unrel c hsrc _ _ _ _ _ HI Eo) as [Hst _].
      assert (Hfb : exists b, fbuf s st = Some b).
      { apply (ef_buf _ _ (j_ef _ _ _ H2)). destruct k; [left; tauto|tauto|right; tauto]. }
      destruct Hfb as (b & Hb). destruct (i_F_buf _ _ _ HI _ _ Hb) as (_ & Hu & Hl).
      unfold op_done in *. rewrite Eo in *. destruct (ok && negb (completable c DBase k)); [apply GS_same|]. rewrite Hw in *. cbn [fst] in *.
      unfold tgt_done in *. destruct ok.
      * destruct k as [off len dd ap|off len got|snap]; cbn [complete_medium] in *; sred.
        -- destruct Hk as (_ & _ & _ & Hf). rewrite Hf. exact (GS_written s n st off len dd ap Eo).
        -- destruct Hk.
        -- rewrite Hk. rewrite (completed_true st b); auto. eapply GS_flushed; eauto.
      * destruct (completed_false st b (set_ops (upd (ops s) n None) s)) as [X ->]; auto. eapply GS_opfail; eauto.
    + unfold op_done. rewrite Eo. apply GS_same.
  - unfold base_apply. destruct (ops s n) as [[o [] [off len dd ap| |]]|] eqn:Eo; try apply GS_same. destruct (write_value _ _ _); [|apply GS_same].
    destruct (_ && _); [|apply GS_same]. eapply (GS_touch s _ n i); eauto. cbn. auto.
  - unfold read_sample. destruct (ops s n) as [[o dv [|off len got|]]|] eqn:Eo; try apply GS_same. destruct (_ && _); [|apply GS_same].
    match goal with |- GS s _ (set_ops ?o s) => replace (set_ops o s) with (set_ops o (set_bh (bh s) s)) by (destruct s; reflexivity) end.
    eapply (GS_touch s _ n i); eauto. cbn. auto.
  - unfold scribble. destruct (sops s n) as [[? ?]|]; [apply GS_scribble|apply GS_same].
  - unfold meta_apply. destruct (mops s n) as [[st g b []|]|] eqn:Em; try apply GS_same. eapply GS_mapply; eauto.
  - unfold worker_recv in *. destruct (mq s) as [|[st|st] l] eqn:Em; [apply GS_same| |exact (GS_recvw s st l Em)].
    assert (Hst : st < nst c) by (apply (i_F_mq _ _ _ HI); rewrite Em; left; now left).
    unfold handle_fetch_request. destruct (Nat.ltb_spec st (nst c)); [|lia]. sred.
    destruct (released (shf s st)) eqn:Er; [eapply GS_drop; eauto|]. destruct (fsts s st) eqn:Ef; [eapply GS_drop; eauto; right; congruence|]. eapply GS_recv; eauto.
  - unfold update_autofetch. destruct (autofetch c) eqn:Ea; [|apply GS_same]. destruct (fq s) eqn:Eq; [|apply GS_same]. destruct (fauto s) as [|st l] eqn:Efa; [apply GS_same|].
    assert (Hst : st < nst c) by (apply (i_F_auto _ _ _ HI); rewrite Efa; now left).
    unfold handle_fetch_request. destruct (Nat.ltb_spec st (nst c)); [|lia]. sred.
    destruct (released (shf s st)) eqn:Er; [eapply GS_autodrop; eauto|]. destruct (fsts s st) eqn:Ef; [eapply GS_autodrop; eauto; right; congruence|]. eapply GS_auto; eauto.
  - unfold start_fetch in *. destruct (fq s) as [|st q] eqn:Eq; [apply GS_same|]. destruct (favail s) as [|b av] eqn:Ea; [apply GS_same|]. cbv zeta in *.
    destruct (queued_unrel c hsrc s st q HI Eq) as [Hst Hr]. destruct (source_accepts _ _ _ _); [exact (GS_start s a st q b av Eq Ea Hst)|].
    destruct (completed_false st b (take st b q av s)) as [X Y]; auto; unfold take; sred; auto.
    + unfold upd. now rewrite Nat.eqb_refl.
    + unfold upd. now rewrite Nat.eqb_refl.
    + apply (i_F_pool _ _ _ HI). rewrite Ea. now left.
    + unfold take in Y. sred. rewrite Y. eapply GS_reject; eauto.
  - unfold src_done in *. destruct (sops s n) as [[st b]|] eqn:Es; [|apply GS_same]. cbv zeta in *.
    destruct (i_F_sop _ _ _ HI _ _ _ Es) as [Hf Hb]. destruct (i_F_range _ _ _ HI _ _ Hf) as [Hst _]. destruct (i_F_buf _ _ _ HI _ _ Hb) as (_ & Hu & Hl).
    destruct ok; sred; rewrite Hb in *.
    + unfold start_write. cbv zeta. pose proof (wf_target _ WF st Hst). destruct (Nat.ltb_spec (target c) (st * ssc c)); [lia|]. exact (GS_sdone s n st b b _ _ _ Es).
    + destruct (completed_false st b (set_sops (upd (sops s) n None) s)) as [X ->]; auto. eapply GS_sfail; eauto.
  - apply GS_takefin.
  - unfold start_meta_write in *. destruct (mqueue s) as [|[st k] q] eqn:Eq; [apply GS_same|]. destruct (mavail s) as [|b av] eqn:Ea; [apply GS_same|]. cbv zeta in *.
    destruct (existsb (Nat.eqb (group_of c st)) (msec s)) eqn:Ex; [apply GS_same|]. assert (Hst : st < nst c) by (eapply (i_M_queue _ _ _ HI st k); rewrite Eq; now left).
    assert (Hns : ~ In (group_of c st) (msec s)).
    { intros Hi. assert (X : existsb (Nat.eqb (group_of c st)) (msec s) = true) by (apply existsb_exists; exists (group_of c st); split; auto; apply Nat.eqb_refl). congruence. }
    destruct (Nat.ltb_spec st (nst c)); [|lia]. sred. destruct (has_flag (mask_of k) (hdrs s st)) eqn:Eh; [eapply GS_skip; eauto|].
    exact (GS_update s st k q b av _ Eq Ea Hns Hst eq_refl).
  - subst ok. unfold meta_done. destruct (mops s n) as [[st g b ap|st snap]|] eqn:Em; [| |apply GS_same]; cbv zeta.
    + destruct ap; cbn [negb andb]; [|apply GS_same]. destruct (i_M_write _ _ _ HI _ _ _ _ _ Em) as (_ & (u & Eu & Es & Eb) & _).
      unfold meta_completion. sred. rewrite Eu, Es. unfold meta_written. cbv zeta.
      destruct (i_M_ubuf _ _ _ HI _ _ Eu Es) as [Y Z]. unfold return_mbuf. sred. rewrite Y. destruct (Nat.ltb_spec (u_buf u) MAX_CONCURRENT_CHANGES); [|lia]. cbn [andb].
      exact (GS_mwritten s n st g b u Em Eu Es Eb).
    + destruct (i_M_flush _ _ _ HI _ _ _ Em) as ((u & Eu & Es) & _). destruct (i_M_upd _ _ _ HI _ _ Eu) as (Hst & _).
      unfold meta_completion. sred. rewrite Eu, Es. unfold meta_flushed. cbv zeta. sred.
      exact (GS_mflushed s n st snap u _ Em Eu Es Hst eq_refl).
  - apply GS_disc.
Qed.

(** ** Nothing asked for is lost *)

(** Stripe [st] is available, or its fetch was requested and not given up. *)
Definition reqd (st : nat) (s : state V) : Prop :=
  released (shf s st) = true \/ In (BFetch st) (mq s) \/ fsts s st <> None.
Definition mupd_for (st : nat) (k : mkind) (s : state V) : Prop :=
  exists u, mupd s st = Some u /\ u_mask u = mask_of k.
Definition acked (st : nat) (k : mkind) (s : state V) : Prop :=
  match k with SetFetched => shf s st = Fetched | SetWritten => shw s st = true end.
(** The update of [st] is on its way through the metadata flusher, or done. *)
Definition recording (st : nat) (k : mkind) (s : state V) : Prop :=
  acked st k s \/ In (st, k) (mqueue s) \/ mupd_for st k s.
Definition comes (st : nat) (s : state V) : Prop :=
  In (st, true) (ffin s) \/ recording st SetFetched s.
Definition wreq (st : nat) (s : state V) : Prop :=
  In (BSetWritten st) (mq s) \/ recording st SetWritten s.

Record LI (s : state V) : Prop := {
  l_fet : forall st, fsts s st = Some FFetched -> comes st s;
  l_chreq : forall q st, chreq s q st = true -> reqd st s;
  l_chq : forall q r, In r (chq s q) -> forall st, In st (req_stripes c (rq_req r)) ->
     reqd st s /\ (track c = true -> is_write (rq_req r) = true -> wreq st s);
  l_auto : autofetch c = true -> forall st, st < nst c -> hsrc st = true -> In st (fauto s) \/ reqd st s
}.

Lemma acked_step s e st k : Ok s -> acked st k s -> acked st k (fst (step c s e)).
Proof.
  intros HO. pose proof (mono_step c hsrc s e HO) as M. destruct k; cbn [acked]; [apply (mo_fet _ _ M)|apply (mo_shw _ _ M)].
Qed.

Lemma ssh_frame st hd s : st < nst c -> 
  fsts (set_stripe_header c st hd s) = fsts s /\ mq (set_stripe_header c st hd s) = mq s /\ ffin (set_stripe_header c st hd s) = ffin s /\
  mqueue (set_stripe_header c st hd s) = mqueue s /\ mupd (set_stripe_header c st hd s) = mupd s /\ chreq (set_stripe_header c st hd s) = chreq s /\
  chq (set_stripe_header c st hd s) = chq s /\ fauto (set_stripe_header c st hd s) = fauto s /\ fq (set_stripe_header c st hd s) = fq s /\
  favail (set_stripe_header c st hd s) = favail s /\ mavail (set_stripe_header c st hd s) = mavail s /\ msec (set_stripe_header c st hd s) = msec s /\
  ops (set_stripe_header c st hd s) = ops s /\ sops (set_stripe_header c st hd s) = sops s /\ mops (set_stripe_header c st hd s) = mops s /\
  wdone (set_stripe_header c st hd s) = wdone s /\ fret (set_stripe_header c st hd s) = fret s /\ fdisc (set_stripe_header c st hd s) = fdisc s.
Proof. clear hsrc WF.
  intros Hst. unfold set_stripe_header. destruct (Nat.ltb_spec st (nst c)); [|lia]. cbv zeta.
  destruct (has_flag FLAG_FETCHED hd), (has_flag FLAG_WRITTEN hd); try destruct (released _); repeat (split; [reflexivity|]); reflexivity.
Qed.
Lemma ssh_acked st u k (s : state V) : st < nst c -> has_flag (mask_of k) u = true -> acked st k (set_stripe_header c st u s).
Proof.
  intros Hst. unfold set_stripe_header. destruct (Nat.ltb_spec st (nst c)); [|lia]. cbv zeta.
  destruct k; cbn [mask_of acked]; intros ->.
  - destruct (has_flag FLAG_WRITTEN u); destruct (released _); sred; unfold upd; now rewrite Nat.eqb_refl.
  - sred. unfold upd. now rewrite Nat.eqb_refl.
Qed.

Lemma mask_inj k k' : mask_of k = mask_of k' -> k = k'.
Proof. destruct k, k'; auto; discriminate. Qed.

(** An update in progress stays, or is acknowledged. *)
Lemma mupd_for_step s e s' st k : Ok s -> Ok s' -> GS s e s' -> mupd_for st k s -> mupd_for st k s' \/ acked st k s'.
Proof.
  intros HO HO' G (u & Hu & Hm). unfold mupd_for.
  assert (Sm : mupd s' = mupd s -> (exists u0, mupd s' st = Some u0 /\ u_mask u0 = mask_of k) \/ acked st k s') by (intros E; rewrite E; eauto).
  destruct G; try (apply Sm; reflexivity); try (apply Sm; apply H); try (apply Sm; apply H0).
  - apply Sm. destruct k0; reflexivity.
  - subst s'. sred. unfold upd. destruct (Nat.eqb_spec st st0) as [->|]; [|eauto].
    destruct (i_M_upd _ _ _ (k_inv _ _ _ HO) _ _ Hu) as (_ & _ & X & _). contradiction.
  - sred. unfold upd. destruct (Nat.eqb_spec st st0) as [->|]; [|eauto]. left. eexists. split; [reflexivity|]. cbn. congruence.
  - destruct (ssh_frame st0 (u_header u0) s1 H2) as (_ & _ & _ & _ & -> & _). subst s1. sred. unfold upd. destruct (Nat.eqb_spec st st0) as [->|]; [|eauto].
    right. apply ssh_acked; auto. rewrite Hu in H0. injection H0 as ->. destruct (i_M_upd _ _ _ (k_inv _ _ _ HO) _ _ Hu) as (_ & _ & _ & -> & X & _). now rewrite <- Hm.
  - apply Sm. unfold disconnect. destruct (_ && _); reflexivity.
Qed.

Lemma flag_recorded s st k : Ok s -> st < nst c -> has_flag (mask_of k) (hdrs s st) = true -> acked st k s \/ mupd_for st k s.
Proof.
  intros HO Hst Hf. destruct k; [apply (em_flagF _ _ _ (j_em _ _ _ (k_inv2 _ _ _ HO)))|apply (em_flagW _ _ _ (j_em _ _ _ (k_inv2 _ _ _ HO)))]; auto.
Qed.

Lemma in_app_l {A} (x : A) l l' : In x l -> In x (l ++ l').
Proof. intros. rewrite in_app_iff. auto. Qed.

Lemma acked_gs s e s' st k : Ok s -> s' = fst (step c s e) -> acked st k s -> acked st k s'.
Proof. intros HO -> . apply acked_step; auto. Qed.

Lemma recording_step s e s' st k : Ok s -> Ok s' -> s' = fst (step c s e) -> GS s e s' -> recording st k s -> recording st k s'.
Proof.
  intros HO HO' E G [H|[H|H]].
  - left. exact (acked_gs s e s' st k HO E H).
  - assert (Sm : forall l, mqueue s' = mqueue s ++ l -> recording st k s') by (intros l El; right; left; rewrite El; now apply in_app_l).
    assert (Sm0 : mqueue s' = mqueue s -> recording st k s') by (intros El; apply (Sm []); now rewrite app_nil_r).
    clear Sm. assert (Sm : forall l, mqueue s' = mqueue s ++ l -> recording st k s') by (intros l El; right; left; rewrite El; now apply in_app_l).
    pose proof (acked_gs s e s' st k HO E) as HA. clear E.
    destruct G; try (apply Sm0; reflexivity); try (apply Sm0; apply H0); try (apply Sm0; apply H1); try (eapply Sm; reflexivity).
    + apply Sm0. destruct k0; reflexivity.
    + rewrite H0 in H. destruct H as [H|H]; [|right; left; auto]. injection H as -> ->.
      destruct (flag_recorded s st k HO H1 H2) as [X|X]; [left; auto|right; right]. exact X.
    + subst s'. rewrite H0 in H. destruct H as [H|H]; [|right; left; auto]. injection H as -> ->.
      right. right. eexists. sred. unfold upd. rewrite Nat.eqb_refl. split; reflexivity.
    + apply Sm0. destruct (ssh_frame st0 (u_header u) s1 H3) as (_ & _ & _ & -> & _). subst s1. reflexivity.
    + apply Sm0. unfold disconnect. destruct (_ && _); reflexivity.
  - destruct (mupd_for_step s e s' st k HO HO' G H); [right; right; auto|left; auto].
Qed.

Lemma comes_step s e s' st : Ok s -> Ok s' -> s' = fst (step c s e) -> GS s e s' -> comes st s -> comes st s'.
Proof.
  intros HO HO' E G [H|H]; [|right; exact (recording_step s e s' st _ HO HO' E G H)].
  assert (Sm : forall l, ffin s' = ffin s ++ l -> comes st s') by (intros l El; left; rewrite El; now apply in_app_l).
  assert (Sm0 : ffin s' = ffin s -> comes st s') by (intros El; apply (Sm []); now rewrite app_nil_r).
  clear E. destruct G; try (apply Sm0; reflexivity); try (apply Sm0; apply H0); try (apply Sm0; apply H1); try (eapply Sm; reflexivity).
  - apply Sm0. destruct k; reflexivity.
  - right. right. left. unfold take_finished_fetches. sred. rewrite in_app_iff. right. apply in_map_iff. exists (st, true). split; auto. apply filter_In. auto.
  - subst s'. auto.
  - apply Sm0. destruct (ssh_frame st0 (u_header u) s1 H3) as (_ & _ & -> & _). subst s1. reflexivity.
  - apply Sm0. unfold disconnect. destruct (_ && _); reflexivity.
Qed.

Lemma wreq_step s e s' st : Ok s -> Ok s' -> s' = fst (step c s e) -> GS s e s' -> wreq st s -> wreq st s'.
Proof.
  intros HO HO' E G [H|H]; [|right; exact (recording_step s e s' st _ HO HO' E G H)].
  assert (Sm : forall l, mq s' = mq s ++ l -> wreq st s') by (intros l El; left; rewrite El; now apply in_app_l).
  assert (Sm0 : mq s' = mq s -> wreq st s') by (intros El; apply (Sm []); now rewrite app_nil_r).
  clear E. destruct G; try (apply Sm0; reflexivity); try (apply Sm0; assumption); try (apply Sm0; apply H0); try (apply Sm0; apply H1); try (eapply Sm; reflexivity).
  - destruct H4 as [(l & El) _ _ _]. eapply Sm; eauto.
  - apply Sm0. destruct k; reflexivity.
  - rewrite H0 in H. destruct H as [H|H]; [discriminate|left; auto].
  - rewrite H0 in H. destruct H as [H|H]; [discriminate|left; auto].
  - rewrite H0 in H. destruct H as [H|H]; [injection H as ->|left; auto]. right. right. left. sred. rewrite in_app_iff. cbn. auto.
  - subst s'. auto.
  - apply Sm0. destruct (ssh_frame st0 (u_header u) s1 H3) as (_ & -> & _). subst s1. reflexivity.
  - apply Sm0. unfold disconnect. destruct (_ && _); reflexivity.
Qed.

(** Once a stripe's fetch has begun it stays known to the fetcher. *)
Lemma fsts_step s e s' st : GS s e s' -> fsts s st <> None -> fsts s' st <> None.
Proof.
  intros G H. assert (Sm0 : fsts s' = fsts s -> fsts s' st <> None) by congruence.
  assert (U : forall x v, upd (fsts s) x (Some v) st <> None) by (intros x v; unfold upd; destruct (st =? x); [discriminate|auto]).
  destruct G; try (apply Sm0; reflexivity); try (apply Sm0; apply H0); try (apply Sm0; apply H1); try (apply U).
  - apply Sm0. destruct k; reflexivity.
  - subst s'. auto.
  - apply Sm0. destruct (ssh_frame st0 (u_header u) s1 H3) as (-> & _). subst s1. reflexivity.
  - apply Sm0. unfold disconnect. destruct (_ && _); reflexivity.
Qed.

Lemma reqd_step s e s' st : Ok s -> s' = fst (step c s e) -> GS s e s' -> reqd st s -> reqd st s'.
Proof.
  intros HO E G [H|[H|H]].
  - left. subst s'. apply (mo_rel _ _ (mono_step c hsrc s e HO)). auto.
  - assert (Sm : forall l, mq s' = mq s ++ l -> reqd st s') by (intros l El; right; left; rewrite El; now apply in_app_l).
    assert (Sm0 : mq s' = mq s -> reqd st s') by (intros El; apply (Sm []); now rewrite app_nil_r).
    clear E. destruct G; try (apply Sm0; reflexivity); try (apply Sm0; assumption); try (apply Sm0; apply H0); try (apply Sm0; apply H1); try (eapply Sm; reflexivity).
    + destruct H4 as [(l & El) _ _ _]. eapply Sm; eauto.
    + apply Sm0. destruct k; reflexivity.
    + rewrite H0 in H. destruct H as [H|H]; [injection H as ->|right; left; auto]. right. right. sred. unfold upd. rewrite Nat.eqb_refl. discriminate.
    + rewrite H0 in H. destruct H as [H|H]; [injection H as ->|right; left; auto]. destruct H1; [left; auto|right; right; auto].
    + rewrite H0 in H. destruct H as [H|H]; [discriminate|right; left; auto].
    + subst s'. right; left; auto.
    + apply Sm0. destruct (ssh_frame st0 (u_header u) s1 H3) as (_ & -> & _). subst s1. reflexivity.
    + apply Sm0. unfold disconnect. destruct (_ && _); reflexivity.
  - right. right. eapply (fsts_step s e s'); eauto.
Qed.

(** A fetch that becomes complete is in the list of finished fetches. *)
Lemma newly_fetched s e s' st : GS s e s' -> fsts s' st = Some FFetched -> fsts s st = Some FFetched \/ In (st, true) (ffin s').
Proof.
  intros G H. assert (Sm0 : fsts s' = fsts s -> fsts s st = Some FFetched \/ In (st, true) (ffin s')) by (intros E; left; congruence).
  assert (U : forall x v, v <> FFetched -> fsts s' = upd (fsts s) x (Some v) -> fsts s st = Some FFetched \/ In (st, true) (ffin s')).
  { intros x v Hv E. rewrite E in H. unfold upd in H. destruct (st =? x); [congruence|auto]. }
  destruct G; try (apply Sm0; reflexivity); try (apply Sm0; apply H0); try (apply Sm0; apply H1); try (eapply U; [|reflexivity]; discriminate).
  - apply Sm0. destruct k; reflexivity.
  - unfold finish in *. sred. unfold upd in H at 1. destruct (Nat.eqb_spec st st0); [subst|auto]. right. rewrite in_app_iff. cbn. auto.
  - subst s'. auto.
  - apply Sm0. destruct (ssh_frame st0 (u_header u) s1 H3) as (-> & _). subst s1. reflexivity.
  - apply Sm0. unfold disconnect. destruct (_ && _); reflexivity.
Qed.

Lemma chreq_step s e s' q st : GS s e s' -> chreq s' q st = true -> chreq s q st = true \/ In (BFetch st) (mq s').
Proof.
  intros G H. assert (Sm0 : chreq s' = chreq s -> chreq s q st = true \/ In (BFetch st) (mq s')) by (intros E; left; congruence).
  destruct G; try (apply Sm0; reflexivity); try (apply Sm0; assumption); auto.
  - destruct H4 as [_ _ X _]. auto.
  - apply Sm0. destruct k; reflexivity.
  - subst s'. auto.
  - apply Sm0. destruct (ssh_frame st0 (u_header u) s1 H3) as (_ & _ & _ & _ & _ & -> & _). subst s1. reflexivity.
  - apply Sm0. unfold disconnect. destruct (_ && _); reflexivity.
Qed.

Lemma chq_gs s e s' q r : GS s e s' -> In r (chq s' q) -> In r (chq s q) \/
  (exists id, e = EAdd q id (rq_req r) /\ r = mk_rwreq (next s) id (rq_req r) /\ asked s s' q (rq_req r)).
Proof.
  intros G H. assert (Sm0 : chq s' = chq s -> In r (chq s q)) by congruence.
  destruct G; try (left; apply Sm0; reflexivity); try (left; apply Sm0; assumption); auto.
  - rewrite H3 in H. unfold upd in H. destruct (Nat.eqb_spec q q0); [|auto]. subst. apply in_app_iff in H. destruct H as [H|[H|[]]]; auto. right.
    subst r. cbn [rq_req]. eauto.
  - rewrite H3 in H. unfold upd in H. destruct (Nat.eqb_spec q q0); [|auto]. subst. left. rewrite H0. now right.
  - left. apply Sm0. destruct k; reflexivity.
  - subst s'. auto.
  - left. apply Sm0. destruct (ssh_frame st (u_header u) s1 H3) as (_ & _ & _ & _ & _ & _ & -> & _). subst s1. reflexivity.
  - left. apply Sm0. unfold disconnect. destruct (_ && _); reflexivity.
Qed.

Lemma fauto_gs s e s' st : GS s e s' -> In st (fauto s) -> In st (fauto s') \/ released (shf s' st) = true \/ fsts s' st <> None.
Proof.
  intros G H. assert (Sm0 : fauto s' = fauto s -> In st (fauto s')) by congruence.
  destruct G; try (left; apply Sm0; reflexivity); try (left; apply Sm0; apply H0); try (left; apply Sm0; apply H1).
  - left. apply Sm0. destruct k; reflexivity.
  - rewrite H2 in H. destruct H as [H|H]; [subst|auto]. right. right. sred. unfold upd. rewrite Nat.eqb_refl. discriminate.
  - rewrite H2 in H. destruct H as [H|H]; [subst|auto]. right. destruct H3; auto.
  - subst s'. auto.
  - left. apply Sm0. destruct (ssh_frame st0 (u_header u) s1 H3) as (_ & _ & _ & _ & _ & _ & _ & -> & _). subst s1. reflexivity.
  - left. apply Sm0. unfold disconnect. destruct (_ && _); reflexivity.
Qed.

Theorem li_step s e s' : Ok s -> Ok s' -> s' = fst (step c s e) -> GS s e s' -> LI s -> LI s'.
Proof.
  intros HO HO' E G [A B C D]. constructor.
  - intros st Hf. destruct (newly_fetched s e s' st G Hf) as [X|X]; [|left; auto]. apply (comes_step s e s'); auto.
  - intros q st Hc. destruct (chreq_step s e s' q st G Hc) as [X|X]; [|right; left; auto]. apply (reqd_step s e s'); eauto.
  - intros q r Hr st Hst. destruct (chq_gs s e s' q r G Hr) as [X|(id & _ & _ & X)].
    + destruct (C q r X st Hst) as [Y Z]. split; [apply (reqd_step s e s'); eauto|]. intros. apply (wreq_step s e s'); auto.
    + destruct X as [_ X1 _ X2]. split.
      * destruct (X1 st Hst) as [Y|[Y|Y]].
        -- left. subst s'. apply (mo_rel _ _ (mono_step c hsrc s e HO)). auto.
        -- apply (reqd_step s e s'); eauto.
        -- right. left. auto.
      * intros Ht Hw. destruct (X2 Ht Hw st Hst) as [Y|Y]; [|left; auto]. right. left. apply (acked_gs s e s' st SetWritten); auto.
  - intros Ha st Hst Hs. destruct (D Ha st Hst Hs) as [X|X].
    + destruct (fauto_gs s e s' st G X) as [Y|[Y|Y]]; auto; right; [left; auto|right; right; auto].
    + right. apply (reqd_step s e s'); eauto.
Qed.

End Live.
