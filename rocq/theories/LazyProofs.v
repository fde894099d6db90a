(** Proofs of the properties of the lazy device (stated in LazyProps.v). *)
From Coq Require Import List Arith NArith Bool Lia ZifyBool ZifyNat.
Import ListNotations.
From Verif Require Import Base BaseFacts DiskSpec TraceSpec TraceFacts LazyState MetadataModel LazyModel LazySpec LazyInv LazyTac LazyInvGuest LazyInvFetch LazyInvMeta LazySim LazyInv2 LazyReach LazyRun.

Section P.
Context {V : Type}.
Variable c : cfg V.
Variable base : nat -> V.
Variable h : nat -> N.
Hypothesis WC : well_configured c h.
Definition hs (st : nat) : bool := has_flag FLAG_HAS_SOURCE (h st).

Lemma wf_of : wf c.
Proof. destruct WC. constructor; auto. Qed.

Lemma ok_reached es : Ok c hs (reached c base h es).
Proof.
  apply ok_run; [apply wf_of|]. apply ok_init; [apply wf_of|auto| |]; destruct WC; auto.
Qed.

Lemma reached_app es1 es2 : reached c base h (es1 ++ es2) = fst (run c (reached c base h es1) es2).
Proof. unfold reached. now rewrite run_app. Qed.
Lemma history_app es1 es2 : history c base h (es1 ++ es2) = history c base h es1 ++ snd (run c (reached c base h es1) es2).
Proof. unfold history, reached. now rewrite run_app. Qed.

Lemma mono_reached es1 es2 : Mono (reached c base h es1) (reached c base h (es1 ++ es2)).
Proof. rewrite reached_app. apply (mono_run c hs wf_of). apply ok_reached. Qed.

Lemma sim_logical s d : Sim c s d -> forall x, x < target c -> cur (d_hist d x) = logical c s x.
Proof.
  intros HS x Hx. unfold logical. destruct (released _) eqn:E.
  - symmetry. eapply hist_cur. eapply (s_rel _ _ _ HS); eauto.
  - rewrite (s_unrel _ _ _ HS x Hx E). reflexivity.
Qed.

Lemma refines es : exists d, disk_behaviour (target c) (initial_contents c base h) (history c base h es) d /\
  Sim c (reached c base h es) d.
Proof.
  destruct (sim_run c hs wf_of es (init c base h) (new_disk (initial_contents c base h))) as (d & A & B & _).
  - apply inv_init; [apply wf_of|auto| |]; destruct WC; auto.
  - apply sim_init.
  - exists d. split; auto.
Qed.

Lemma is_a_disk es : exists d, disk_behaviour (target c) (initial_contents c base h) (history c base h es) d /\
  forall x, x < target c -> cur (d_hist d x) = logical c (reached c base h es) x.
Proof. destruct (refines es) as (d & A & B). exists d. split; auto. apply sim_logical; auto. Qed.

Lemma crash_is_a_disk_crash es pb pm : exists d d' survivor,
  disk_behaviour (target c) (initial_contents c base h) (history c base h es) d /\
  dstep (target c) d (DCrash survivor) = Some (d', [TCrash]) /\
  forall x, x < target c -> cur (d_hist d' x) = logical c (fst (step c (reached c base h es) (ECrash pb pm))) x.
Proof.
  destruct (refines es) as (d & A & B). pose proof (k_inv _ _ _ (ok_reached es)) as HI.
  exists d. set (s := reached c base h es) in *. exists (mk_disk (fun _ => None) (d_used d) (fun x => crashed (d_hist d x) (sim_pick (bh s x) (pb x))) (d_done d)).
  exists (fun x => sim_pick (bh s x) (pb x)). split; auto. split; [reflexivity|].
  apply sim_logical. destruct (sim_crash c hs s d pb pm HI B) as (d' & [e St] & S').
  (* the same disk state as in sim_crash *)
  cbn [step fst]. clear S' St e d'.
  pose proof (fun st => crash_released c hs pb pm s st HI) as Hr1.
  pose proof (fun st => crash_newly c hs pb pm s st HI) as Hr2.
  destruct B as [S1 S2 S3 S4 S5 S6 S7 S8 S9 S10 S11 S12].
  constructor; auto; cbn [d_ops d_used d_hist d_done]; unfold crash, boot in *; cbv zeta in *; sred; try discriminate.
  - intros x Hx Hr. destruct (released (shf s (x / ssc c))) eqn:E.
    + apply hist_crash; [tauto|]. apply S5; auto.
    + rewrite S6 by auto. destruct (Hr2 _ E Hr x (conj eq_refl Hx)) as (w & ->).
      unfold crashed, sim_pick. exists [], 0, 0, (image c x), []. repeat split.
      * destruct (nth_error _ (pb x)) as [e|] eqn:En; auto. destruct (pb x) as [|[]]; cbn in En; try discriminate. injection En as <-. auto.
      * destruct (pb x <? _) eqn:El; auto. destruct (pb x) as [|[]]; auto.
      * intros ? [].
  - intros x Hx Hr. destruct (released (shf s (x / ssc c))) eqn:E.
    + rewrite Hr1 in Hr by auto. discriminate.
    + rewrite S6 by auto. unfold crashed, sim_pick. destruct (nth_error _ _) as [e|] eqn:En; auto.
      match type of En with nth_error _ ?k = _ => destruct k as [|[]] end; cbn in En; try discriminate. injection En as <-. auto.
  - intros q r [].
  - intros q n id [].
  - intros q. split; [constructor|]. intros n [].
Qed.

(** ** Background steps *)
Lemma cur_trim {A} snap (l : list (nat * A)) : cur (trim snap l) = cur l.
Proof. destruct l as [|e l]; auto. cbn. destruct (snap (fst e)); auto. Qed.

Lemma logical_same (s s' : state V) x : released (shf s' (x / ssc c)) = released (shf s (x / ssc c)) -> cur (bh s' x) = cur (bh s x) ->
  logical c s' x = logical c s x.
Proof. intros H1 H2. unfold logical. now rewrite H1, H2. Qed.

Lemma logical_fetch_completed st ok s x : released (shf s st) = false -> logical c (fetch_completed c st ok s) x = logical c s x.
Proof.
  intros Hr. assert (E : bh (fetch_completed c st ok s) = bh s).
  { rewrite fetch_completed_eq. cbv zeta. assert (E : bh (release_buf st s) = bh s).
    { unfold release_buf. destruct (fbuf s st); auto. unfold return_fbuf. sred. destruct (_ && _); auto. }
    destruct ok; auto. destruct (_ <? _); auto. destruct (_ <? _); auto. }
  apply logical_same; [|now rewrite E]. rewrite fetch_completed_eq. cbv zeta. destruct (release_buf_frame st s) as (_ & _ & R & _ & _).
  destruct ok; sred; [now rewrite R|]. destruct (_ <? _); sred; [now rewrite R|]. destruct (_ <? _); sred; [|now rewrite R]. rewrite R.
  unfold upd. destruct (Nat.eqb_spec (x / ssc c) st); auto. subst. rewrite Hr. auto.
Qed.

Lemma background_keeps es e x : background (reached c base h es) e = true -> x < target c ->
  logical c (fst (step c (reached c base h es) e)) x = logical c (reached c base h es) x.
Proof.
  intros Hb Hx. destruct (refines es) as (d & _ & HS). destruct (ok_reached es) as [HI _ H2]. set (s := reached c base h es) in *. clearbody s.
  assert (K : forall s', Sim c s' d -> logical c s' x = logical c s x).
  { intros s' HS'. rewrite <- (sim_logical s d HS x Hx), <- (sim_logical s' d HS' x Hx). auto. }
  assert (W : forall f, (logical c (f s) x = logical c s x) -> logical c (worker f s) x = logical c s x) by (intros f Hf; unfold worker; destruct (wdone s); auto).
  pose proof wf_of as WF.
  unfold step. destruct e as [q id r|q|q|n ok|n i|n i|n i v|n| | | |a|n ok| | |n ok| |pb pm]; try discriminate; (destruct (panic s) eqn:Hp; [auto|]); cbn [fst background] in *.
  - unfold guest_op in Hb. destruct (ops s n) as [[[q id|st] dv k]|] eqn:Eo; [discriminate| |unfold op_done; rewrite Eo; auto].
    destruct (op_done_fetch_eq c n ok s st dv k Eo) as [->| ->]; auto. destruct (fetch_op_unrel c hs _ _ _ _ _ HI Eo) as [Hst Hr].
    assert (X : logical c (if ok then complete_medium n k (set_ops (upd (ops s) n None) s) else set_ops (upd (ops s) n None) s) x = logical c s x /\
      released (shf (if ok then complete_medium n k (set_ops (upd (ops s) n None) s) else set_ops (upd (ops s) n None) s) st) = false).
    { destruct ok; [destruct k|]; split; auto. apply logical_same; auto. sred. apply cur_trim. }
    set (s1 := if ok then _ else _) in *. clearbody s1. destruct X as [X Y]. rewrite <- X. unfold tgt_done.
    destruct ok; [|apply logical_fetch_completed; auto]. destruct (fsts s1 st) as [[| | |]|]; auto. apply logical_fetch_completed; auto.
  - unfold guest_op in Hb. unfold base_apply. destruct (ops s n) as [[[q id|st] dv k]|] eqn:Eo; [discriminate| |auto].
    destruct dv; auto. destruct k as [off len dd ap| |]; auto. destruct (write_value dd i s) as [v|] eqn:Ev; auto. destruct (_ && _) eqn:Ec; auto.
    destruct (fetch_op_unrel c hs _ _ _ _ _ HI Eo) as [Hst Hr]. destruct (i_F_op _ _ _ HI _ _ _ _ Eo) as (_ & -> & -> & _).
    apply andb_true_iff in Ec. destruct Ec as [Ec _]. apply andb_true_iff in Ec. destruct Ec as [Ec1 Ec2]. apply Nat.ltb_lt in Ec1. apply Nat.ltb_lt in Ec2.
    unfold logical. sred. destruct (released (shf s (x / ssc c))) eqn:E; auto. unfold upd. destruct (Nat.eqb_spec x (st * ssc c + i)); auto.
    exfalso. subst x. rewrite Nat.div_add_l in E by (pose proof (wc_ssc _ _ WC); lia). rewrite Nat.div_small in E by lia. rewrite Nat.add_0_r in E. congruence.
  - unfold read_sample. destruct (ops s n) as [[o dv [| |]]|] eqn:Eo; auto. destruct (_ && _); auto.
  - apply K, (sim_scribble c hs); auto.
  - apply K, (sim_meta_apply c hs); auto.
  - apply W, K, (sim_worker_recv c hs); auto.
  - auto.
  - apply W, K, (sim_update_autofetch c hs); auto.
  - apply W, K. eapply sim_start_fetch; eauto.
  - apply W, K. eapply sim_src_done; eauto.
  - apply W, K, (sim_take_finished_fetches c hs); auto.
  - apply W, K, (sim_start_meta_write c hs); auto.
  - apply W, K. eapply sim_meta_done; eauto.
  - apply W, K, (sim_disconnect c hs); auto.
Qed.

(** ** Flags *)
Lemma stored_in s pick st : Inv c hs s -> exists e, In e (mh s (group_of c st)) /\ stored_header c s pick st = snd e st.
Proof. intros HI. apply (loaded_crash c hs pick s st HI). Qed.

Lemma fetched_durable es st : shf (reached c base h es) st = Fetched -> durable_flag c (reached c base h es) FLAG_FETCHED st.
Proof.
  intros Hf pick. pose proof (k_inv _ _ _ (ok_reached es)) as HI. destruct (stored_in _ pick st HI) as (e & Hi & ->).
  apply (i_M_ackF _ _ _ HI st Hf); auto.
Qed.
Lemma written_durable es st : shw (reached c base h es) st = true -> durable_flag c (reached c base h es) FLAG_WRITTEN st.
Proof.
  intros Hf pick. pose proof (k_inv _ _ _ (ok_reached es)) as HI. destruct (stored_in _ pick st HI) as (e & Hi & ->).
  apply (i_M_ackW _ _ _ HI st Hf); auto.
Qed.

Lemma released_cases es st : st < nst c -> released (shf (reached c base h es) st) = true ->
  hs st = false \/ durable_flag c (reached c base h es) FLAG_FETCHED st.
Proof.
  intros Hst Hr. pose proof (k_inv _ _ _ (ok_reached es)) as HI. pose proof (proj1 (i_M_shf _ _ _ HI st) Hst) as X.
  destruct (shf _ st) eqn:E; try discriminate; auto. right. apply fetched_durable; auto.
Qed.

Lemma writing_released es x : guest_writing (reached c base h es) x ->
  released (shf (reached c base h es) (x / ssc c)) = true /\
  (track c = true -> shw (reached c base h es) (x / ssc c) = true).
Proof.
  intros (n & q & id & off & len & d & ap & Ho & Hx). pose proof (k_inv _ _ _ (ok_reached es)) as HI.
  destruct (i_G_op _ _ _ HI _ _ _ _ _ Ho) as [_ T]. destruct (T (x - off)) as [A B]; [lia|].
  replace (off + (x - off)) with x in * by lia. auto.
Qed.

Lemma copying_unreleased es x : copying (reached c base h es) x -> released (shf (reached c base h es) (x / ssc c)) = false /\ x / ssc c < nst c.
Proof.
  intros (n & st & dv & off & len & d & ap & Ho & Hx). pose proof (k_inv _ _ _ (ok_reached es)) as HI.
  destruct (fetch_op_unrel c hs _ _ _ _ _ HI Ho) as [A B]. destruct (i_F_op _ _ _ HI _ _ _ _ Ho) as (_ & -> & -> & _).
  assert (E : x / ssc c = st).
  { pose proof (wc_ssc _ _ WC). replace x with (st * ssc c + (x - st * ssc c)) by lia. rewrite Nat.div_add_l by lia. rewrite Nat.div_small by lia. lia. }
  rewrite E. auto.
Qed.

Lemma shf_handle st (s : state V) : shf (handle_fetch_request c st s) = shf s.
Proof. unfold handle_fetch_request. destruct (_ <? _); auto. destruct (released _); auto. destruct (fsts s st); auto. Qed.

Lemma bh_meta_completion st1 ok (s1 : state V) : bh (meta_completion c st1 ok s1) = bh s1.
Proof.
  unfold meta_completion. destruct (mupd s1 st1) as [u|]; auto. destruct ok; [destruct (u_stage u)|].
  - unfold meta_written, return_mbuf. destruct (_ && _); auto.
  - unfold meta_flushed, set_stripe_header. cbv zeta. sred. destruct (_ <? _); auto. destruct (has_flag FLAG_FETCHED _), (has_flag FLAG_WRITTEN _); try destruct (released _); auto.
  - unfold meta_failed, return_mbuf. cbv zeta. destruct (u_stage u); try destruct (_ && _); auto.
Qed.

(** The step that makes a stripe visible as fetched. *)
Lemma release_step es e st : st < nst c -> released (shf (reached c base h es) st) = false ->
  released (shf (reached c base h (es ++ [e])) st) = true ->
  hs st = true /\
  (forall x, x < target c -> x / ssc c = st -> exists w, bh (reached c base h (es ++ [e])) x = [(w, image c x)]) /\
  durable_flag c (reached c base h (es ++ [e])) FLAG_FETCHED st.
Proof.
  intros Hst Hr Hr'. pose proof (k_inv _ _ _ (ok_reached es)) as HI. pose proof (k_inv _ _ _ (ok_reached (es ++ [e]))) as HI'.
  assert (Hs : hs st = true).
  { pose proof (proj1 (i_M_shf _ _ _ HI st) Hst) as X. destruct (shf (reached c base h es) st); auto; discriminate. }
  assert (Hf : durable_flag c (reached c base h (es ++ [e])) FLAG_FETCHED st) by (destruct (released_cases _ _ Hst Hr'); congruence).
  split; auto. split; auto.
  assert (D : durable c (reached c base h es) st -> bh (reached c base h (es ++ [e])) = bh (reached c base h es) ->
     forall x, x < target c -> x / ssc c = st -> exists w, bh (reached c base h (es ++ [e])) x = [(w, image c x)]).
  { intros D E x Hx Hxs. rewrite E. apply D. split; auto. }
  rewrite reached_app in Hr' |- *. rewrite reached_app in D. set (s := reached c base h es) in *. clearbody s. clear HI' Hf.
  cbn [run] in *. destruct (step c s e) as [s' t] eqn:Es. cbn [fst] in *.
  assert (Keep : released (shf s st) = released (shf s' st) -> False) by congruence.
  unfold step in Es. pose proof wf_of as WF.
  assert (Fin : shf s' = shf s -> False) by (intros E; rewrite E in Hr'; congruence).
  destruct e as [q id r|q|q|n ok|n i|n i|n i v|n| | | |a|n ok| | |n ok| |pb pm];
   try (destruct (panic s) eqn:Hp; [injection Es as <- <-; congruence|]).
  - exfalso. apply Fin. injection Es as <- <-. eapply g_shf, gf_add_req. intros m Hm. eapply ops_next; eauto.
  - exfalso. apply Fin. injection Es as <- <-. unfold process_front. destruct (chq s q) as [|r l]; auto.
    destruct (fetch_status _ _ _); auto. destruct (_ && _); auto. destruct (stripes_written _ _ _) as [[|]|]; auto.
  - exfalso. apply Fin. injection Es as <- <-. auto.
  - exfalso. replace s' with (fst (op_done c n ok s)) in Hr' by (rewrite Es; auto). destruct (ops s n) as [[[q id|st'] dv k]|] eqn:Eo.
    + unfold op_done in Hr'. rewrite Eo in Hr'. destruct (_ && _); [cbn [fst] in Hr'; congruence|]. destruct ok; [destruct k|]; cbn [fst complete_medium] in Hr'; sred; congruence.
    + destruct (op_done_fetch_eq c n ok s st' dv k Eo) as [Y|Y]; rewrite Y in Hr'; [congruence|].
      assert (X : shf (if ok then complete_medium n k (set_ops (upd (ops s) n None) s) else set_ops (upd (ops s) n None) s) = shf s).
      { destruct ok; [destruct k|]; auto. }
      set (s1 := if ok then _ else _) in *. clearbody s1. 
      assert (FC : forall b, released (shf (fetch_completed c st' b s1) st) = true -> False).
      { intros b. rewrite fetch_completed_eq. cbv zeta. destruct (release_buf_frame st' s1) as (_ & _ & R & _ & _).
        destruct b; sred; [rewrite R, X; congruence|]. destruct (_ <? _); sred; [rewrite R, X; congruence|]. destruct (_ <? _); sred; [|rewrite R, X; congruence].
        unfold upd. destruct (Nat.eqb_spec st st'); [discriminate|rewrite R, X; congruence]. }
      unfold tgt_done in Hr'. destruct ok; [|eauto]. destruct (fsts s1 st') as [[| | |]|]; eauto; try congruence. sred. unfold start_flush in Hr'. sred. congruence.
    + unfold op_done in Hr'. rewrite Eo in Hr'. cbn [fst] in Hr'. congruence.
  - exfalso. apply Fin. injection Es as <- <-. unfold base_apply. destruct (ops s n) as [[o [] [| |]]|]; auto. destruct (write_value _ _ _); auto. destruct (_ && _); auto.
  - exfalso. apply Fin. injection Es as <- <-. unfold read_sample. destruct (ops s n) as [[o dv0 [| |]]|]; auto. destruct (_ && _); auto.
  - exfalso. apply Fin. injection Es as <- <-. unfold scribble. destruct (sops s n) as [[? ?]|]; auto.
  - exfalso. apply Fin. injection Es as <- <-. unfold meta_apply. destruct (mops s n) as [[? ? ? []|]|]; auto.
  - exfalso. apply Fin. injection Es as <- <-. unfold worker, worker_recv. destruct (wdone s); auto. destruct (mq s) as [|[?|?] ?]; auto. now rewrite shf_handle.
  - exfalso. apply Fin. injection Es as <- <-. auto.
  - exfalso. apply Fin. injection Es as <- <-. unfold worker, update_autofetch. destruct (wdone s); auto. destruct (autofetch c); auto. destruct (fq s); auto. destruct (fauto s); auto. now rewrite shf_handle.
  - exfalso. injection Es as <- <-. unfold worker, start_fetch in Hr'. destruct (wdone s); [congruence|]. destruct (fq s) as [|st' q] eqn:Eq; [congruence|]. destruct (favail s) as [|b av] eqn:Ea; [congruence|]. cbv zeta in Hr'.
    destruct (source_accepts _ _ _ _); [sred; congruence|]. rewrite fetch_completed_eq in Hr'. cbv zeta in Hr'.
    match type of Hr' with context [release_buf st' ?a] => destruct (release_buf_frame st' a) as (_ & _ & R & _ & _); set (s1 := release_buf st' a) in *; clearbody s1 end.
    destruct (_ <? _); sred; [rewrite R in Hr'; congruence|]. destruct (_ <? _); sred; [|rewrite R in Hr'; congruence]. rewrite R in Hr'. unfold upd in Hr'. destruct (Nat.eqb_spec st st'); [discriminate|congruence].
  - exfalso. injection Es as <- <-. unfold worker, src_done in Hr'. destruct (wdone s); [congruence|]. destruct (sops s n) as [[st' b]|] eqn:Eo; [|congruence]. cbv zeta in Hr'.
    destruct ok; sred; (destruct (fbuf s st'); sred; [|sred; congruence]).
    + unfold start_write in Hr'. cbv zeta in Hr'. destruct (_ <? _); sred; congruence.
    + rewrite fetch_completed_eq in Hr'. cbv zeta in Hr'.
    match type of Hr' with context [release_buf st' ?a] => destruct (release_buf_frame st' a) as (_ & _ & R & _ & _); set (s1 := release_buf st' a) in *; clearbody s1 end.
    destruct (_ <? _); sred; [rewrite R in Hr'; congruence|]. destruct (_ <? _); sred; [|rewrite R in Hr'; congruence]. rewrite R in Hr'. unfold upd in Hr'. destruct (Nat.eqb_spec st st'); [discriminate|congruence].
  - exfalso. apply Fin. injection Es as <- <-. unfold worker. destruct (wdone s); auto.
  - exfalso. apply Fin. injection Es as <- <-. unfold worker, start_meta_write. destruct (wdone s); auto. destruct (mqueue s) as [|[? ?] ?]; auto. destruct (mavail s); auto. cbv zeta.
    destruct (existsb _ _); auto. destruct (_ <? _); auto. destruct (has_flag _ _); auto.
  - (* metadata completion *)
    injection Es as <- <-. 
    assert (Bh : bh (worker (meta_done c n ok) s) = bh s).
    { unfold worker, meta_done. destruct (wdone s); auto. cbv zeta.
      destruct (mops s n) as [[? ? ? ?|? ?]|]; auto; [destruct (_ && _); auto|]; rewrite bh_meta_completion; destruct ok; auto. }
    apply D; auto.
    assert (Hf : has_flag FLAG_FETCHED (hdrs s st) = true).
    { unfold worker, meta_done in Hr'. destruct (wdone s); [congruence|].
      assert (G : forall st1 s1, shf s1 = shf s -> hdrs s1 = hdrs s -> Inv c hs s1 -> released (shf (meta_completion c st1 ok s1) st) = true -> has_flag FLAG_FETCHED (hdrs s st) = true).
      { intros st1 s1 E1 E2 HI1. unfold meta_completion. destruct (mupd s1 st1) as [u|] eqn:Eu; [|rewrite E1; congruence]. destruct ok; [destruct (u_stage u)|].
        - unfold meta_written, return_mbuf. destruct (_ && _); sred; rewrite E1; congruence.
        - destruct (i_M_upd _ _ _ HI1 _ _ Eu) as (_ & _ & _ & Hhd & _).
          unfold meta_flushed, set_stripe_header. cbv zeta. sred. destruct (_ <? _); [|sred; rewrite E1; congruence]. rewrite Hhd, E2.
          destruct (Nat.eq_dec st st1) as [->|Hne].
          + destruct (has_flag FLAG_FETCHED (hdrs s st1)) eqn:E; auto. destruct (has_flag FLAG_WRITTEN _); sred; rewrite E1; congruence.
          + destruct (has_flag FLAG_FETCHED (hdrs s st1)), (has_flag FLAG_WRITTEN _); try destruct (released (shf s1 st1)); sred; unfold upd; try (destruct (Nat.eqb_spec st st1); [congruence|]); rewrite E1; congruence.
        - unfold meta_failed, return_mbuf. cbv zeta. destruct (u_stage u); try destruct (_ && _); sred; rewrite E1; congruence. }
      pose proof (inv_remove_mop _ _ s n HI) as HI1. cbv zeta in Hr'.
      destruct (mops s n) as [[st1 g b ap|st1 snap]|]; [|eapply (G st1); [| | |exact Hr']|congruence].
      + destruct (_ && _); [congruence|]. eapply (G st1); [| | |exact Hr']; destruct ok; auto. apply inv_set_mdone; auto.
      + destruct ok; auto.
      + destruct ok; auto.
      + destruct ok; auto. apply inv_trim_mh; auto. }
    destruct (i_M_safe _ _ _ HI st Hst (or_introl Hf)) as [_ [X|X]]; [congruence|].
    destruct (i_D_fetched _ _ _ HI st X) as [Y|Y]; [congruence|auto].
  - exfalso. apply Fin. injection Es as <- <-. unfold worker, disconnect. destruct (wdone s); auto. destruct (_ && _); auto.
  - injection Es as <- <-. pose proof (crash_newly c hs pb pm s st HI Hr Hr') as Y. intros x Hx Hxs. destruct (Y x (conj Hxs Hx)) as (w & E).
    exists 0. unfold crash, boot. cbv zeta. sred. rewrite E. unfold crashed. destruct (nth_error _ (pb x)) as [e|] eqn:En; auto.
    destruct (pb x) as [|[]]; cbn in En; try discriminate. injection En as <-. auto.
Qed.

End P.
