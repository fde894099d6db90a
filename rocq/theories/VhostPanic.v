(** C36: exactly which events make the vhost backend thread panic. *)
From Coq Require Import List NArith ZArith Arith Bool Lia ZifyBool ZifyNat ZifyN.
From Verif Require Import Base BaseFacts VhostModel VhostSpec VhostProofs VhostProps.
From Verif Require UblkProofs.
Import ListNotations.
Local Open Scope N_scope.
Ltac Zify.zify_post_hook ::= Z.div_mod_to_equations.

Lemma gather_exact : forall valid m l buf pos ok, pos <= N.of_nat (length buf) ->
  (gather valid m buf pos ok l = Panic <-> N.of_nat (length buf) < pos + total_len l) /\
  is_err (gather valid m buf pos ok l) = false.
Proof.
  induction l as [|[a n] l IH]; intros buf pos ok H; cbn [gather].
  - split; [|reflexivity]. split; [discriminate|]. cbn. lia.
  - rewrite total_len_cons. unfold nslice. destruct (N.leb_spec (pos + n) (N.of_nat (length buf))) as [Hle|Hgt]; cbn [bindr].
    + destruct (gm_read valid m a (N.to_nat n)) as [bs|] eqn:E.
      * assert (L : length (splice buf (N.to_nat pos) bs) = length buf).
        { apply splice_length. rewrite (gm_read_length _ _ _ _ _ E). lia. }
        specialize (IH (splice buf (N.to_nat pos) bs) (pos + n) ok). rewrite L in IH. destruct (IH Hle) as [I1 I2].
        split; [|exact I2]. rewrite I1. lia.
      * destruct (IH buf (pos + n) false Hle) as [I1 I2]. split; [|exact I2]. rewrite I1. lia.
    + split; [|reflexivity]. split; [lia|reflexivity].
Qed.

Lemma segs_valid_cons : forall valid a n r, segs_valid valid ((a, n) :: r) <->
  forallb valid (range a (N.to_nat n)) = true /\ segs_valid valid r.
Proof.
  intros valid a n r. unfold segs_valid. rewrite forallb_forall. split.
  - intros H. split.
    + intros x Hx. apply H, in_segs_cons. left. apply in_range in Hx. unfold in_seg. cbn [fst snd]. lia.
    + intros x Hx. apply H, in_segs_cons. now right.
  - intros [H1 H2] x Hx. apply in_segs_cons in Hx as [Hx|Hx]; [|now apply H2].
    apply H1, in_range. unfold in_seg in Hx. cbn [fst snd] in Hx. lia.
Qed.

Lemma write_to_guest_exact : forall valid buf l m pos, pos <= N.of_nat (length buf) ->
  (write_to_guest valid m buf pos l = Panic <->
   exists before a n after, l = before ++ (a, n) :: after /\ segs_valid valid before /\
     N.of_nat (length buf) < pos + total_len before + n) /\
  is_err (write_to_guest valid m buf pos l) = false.
Proof.
  induction l as [|[a n] l IH]; intros m pos H; cbn [write_to_guest].
  - split; [|reflexivity]. split; [discriminate|]. intros (bf & a & n & af & E & _). now destruct bf.
  - unfold nslice. destruct (N.leb_spec (pos + n) (N.of_nat (length buf))) as [Hle|Hgt]; cbn [bindr].
    + set (ch := firstn _ _). assert (Lc : length ch = N.to_nat n) by (unfold ch; rewrite firstn_length, skipn_length; lia).
      assert (V := gm_write_valid valid ch m a). rewrite Lc in V.
      destruct (gm_write valid m a ch) as [m' ok]. cbn [snd] in V. destruct ok.
      * destruct (IH m' (pos + n) Hle) as [I1 I2]. split; [|exact I2]. rewrite I1. split.
        -- intros (bf & a' & n' & af & -> & Hv & Hl). exists ((a, n) :: bf), a', n', af.
           split; [reflexivity|]. split; [apply segs_valid_cons; now split|]. rewrite total_len_cons. lia.
        -- intros (bf & a' & n' & af & E & Hv & Hl). destruct bf as [|[a0 n0] bf].
           ++ injection E as <- <- <-. cbn [total_len fold_right] in Hl. lia.
           ++ injection E as <- <- ->. exists bf, a', n', af. apply segs_valid_cons in Hv as [_ Hv].
              rewrite total_len_cons in Hl. repeat split; auto. lia.
      * split; [|reflexivity]. split; [discriminate|]. intros (bf & a' & n' & af & E & Hv & Hl).
        destruct bf as [|[a0 n0] bf].
        -- injection E as <- <- <-. cbn [total_len fold_right] in Hl. lia.
        -- injection E as <- <- ->. apply segs_valid_cons in Hv as [Hv _]. congruence.
    + split; [|reflexivity]. split; [|reflexivity]. intros _. exists [], a, n, l. repeat split.
      * intros x (sg & [] & _).
      * cbn [total_len fold_right]. lia.
Qed.

(** Every buffer is smaller than 2^32 bytes. *)
Definition bounded (s : vstate) : Prop := Forall (fun sl => sl_len sl < 2 ^ 32) (v_slots s).

Lemma get_slot_bounded : forall len rq head l id l', len < 2 ^ 32 ->
  get_request_slot len rq head l = (id, l') -> Forall (fun sl => sl_len sl < 2 ^ 32) l ->
  Forall (fun sl => sl_len sl < 2 ^ 32) l'.
Proof.
  intros len rq head l id l' Hl E H. unfold get_request_slot in E. destruct (find_slot 0 len l) as [i|] eqn:Ef.
  - injection E as <- <-. apply UblkProofs.Forall_set_nth; [|exact H]. cbn [fill_slot sl_len].
    apply find_slot_spec in Ef as (_ & sl & Hs & _). rewrite Nat.sub_0_r in Hs. rewrite (nth_error_nth _ _ _ Hs).
    rewrite Forall_forall in H. apply H. eapply nth_error_In; eauto.
  - injection E as <- <-. apply Forall_app. split; [exact H|]. constructor; [exact Hl|constructor].
Qed.

Lemma nth_bounded : forall l i, Forall (fun sl => sl_len sl < 2 ^ 32) l -> sl_len (nth i l (new_slot 0)) < 2 ^ 32.
Proof.
  intros l i H. destruct (Nat.lt_ge_cases i (length l)) as [Hi|Hi].
  - rewrite Forall_forall in H. apply H, nth_In, Hi.
  - rewrite nth_overflow by exact Hi. reflexivity.
Qed.

Lemma complete_io_slots : forall valid q h a st s, v_slots (complete_io valid q h a st s) = v_slots s.
Proof.
  intros. unfold complete_io. cbn [set_pend v_mem]. destruct (gm_write valid (v_mem s) a [st]) as [m ok].
  destruct ok; [|reflexivity].
  match goal with |- v_slots (add_used q h ?x) = _ => pose proof (add_used_rest q h x) as R end.
  cbv zeta in R. destruct R as (_ & -> & _). reflexivity.
Qed.

Lemma request_len_lt : forall l, request_len 0 l < 2 ^ 32.
Proof. intros l. rewrite request_len_mod by reflexivity. apply N.mod_lt. discriminate. Qed.

Lemma step_bounded : forall valid q did s e s', bounded s -> step valid q did s e = Ok s' -> bounded s'.
Proof.
  intros valid q did s e s' H E. unfold bounded in *. destruct e; cbn [step] in E.
  - unfold process_chain in E. destruct (parse valid (v_mem s) c) as [rq|x|] eqn:Ep; try discriminate.
    + assert (L := request_len_lt (rq_data rq)).
      destruct (rq_type rq).
      * unfold process_read in E. destruct (negb _); [injection E as <-; now rewrite complete_io_slots|].
        destruct (get_request_slot _ _ _ _) as [id sls] eqn:Eg. injection E as <-. cbn [emit set_slots v_slots].
        eapply get_slot_bounded; [exact L|exact Eg|exact H].
      * unfold process_write in E. destruct (negb _); [injection E as <-; now rewrite complete_io_slots|].
        destruct (get_request_slot _ _ _ _) as [id sls] eqn:Eg.
        destruct (gather _ _ _ _ _ _) as [[buf ok]| |]; cbn [bindr] in E; try discriminate.
        assert (Hs : Forall (fun sl => sl_len sl < 2 ^ 32) sls) by (eapply get_slot_bounded; [exact L|exact Eg|exact H]).
        assert (Hs' : Forall (fun sl => sl_len sl < 2 ^ 32) (set_nth id (set_buf buf (nth id sls (new_slot 0))) sls)).
        { apply UblkProofs.Forall_set_nth; [|exact Hs]. cbn [set_buf sl_len]. now apply nth_bounded. }
        destruct ok; injection E as <-.
        -- exact Hs'.
        -- unfold put_request_slot. cbn [set_slots v_slots]. rewrite !complete_io_slots. cbn [set_slots v_slots].
           apply UblkProofs.Forall_set_nth; [|exact Hs']. cbn [set_used_flag sl_len]. now apply nth_bounded.
      * unfold process_flush in E. destruct (get_request_slot _ _ _ _) as [id sls] eqn:Eg. injection E as <-.
        cbn [emit set_slots v_slots]. eapply get_slot_bounded; [|exact Eg|exact H]. reflexivity.
      * unfold process_get_device_id in E. destruct (index (rq_data rq) 0) as [[a n]| |]; cbn [bindr] in E; try discriminate.
        destruct (n <? ID_BYTES); [injection E as <-; now rewrite complete_io_slots|].
        destruct (gm_write _ _ _ _) as [m ok]. injection E as <-. rewrite complete_io_slots. exact H.
      * injection E as <-. now rewrite complete_io_slots.
      * injection E as <-. now rewrite complete_io_slots.
      * injection E as <-. now rewrite complete_io_slots.
    + injection E as <-. unfold complete_bad_chain. pose proof (add_used_rest q (c_head c) s) as R. cbv zeta in R.
      destruct R as (_ & -> & _). exact H.
  - unfold complete_one in E. destruct (index (v_slots s) id) as [sl0| |] eqn:Ei; cbn [bindr] in E; try discriminate.
    assert (H0 : sl_len sl0 < 2 ^ 32).
    { unfold index in Ei. destruct (nth_error (v_slots s) id) as [x|] eqn:En; [|discriminate]. injection Ei as <-.
      rewrite Forall_forall in H. apply H. eapply nth_error_In; eauto. }
    set (sl := if is_in (sl_type sl0) && success then set_buf (splice (sl_buf sl0) 0 data) sl0 else sl0) in *.
    assert (H1 : sl_len sl < 2 ^ 32) by (unfold sl; destruct (_ && _); [cbn [set_buf sl_len]|]; exact H0).
    assert (H2 : Forall (fun sl => sl_len sl < 2 ^ 32) (set_nth id sl (v_slots s))) by now apply UblkProofs.Forall_set_nth.
    destruct (sl_chain sl) as [h|]; [|injection E as <-; exact H2].
    match type of E with bindr ?x _ = _ => destruct x as [[m ok]| |]; cbn [bindr] in E; try discriminate end.
    injection E as <-. unfold put_request_slot. cbn [set_slots v_slots]. rewrite !complete_io_slots. cbn [set_mem set_out set_slots v_slots].
    apply UblkProofs.Forall_set_nth; [|exact H2]. cbn [set_used_flag sl_len]. now apply nth_bounded.
  - injection E as <-. pose proof (signal_rest event_idx needs s) as R. cbv zeta in R. destruct R as (_ & -> & _). exact H.
  - injection E as <-. exact H.
Qed.

Lemma run_bounded : forall valid q did es s s', bounded s -> run valid q did s es = Ok s' -> bounded s'.
Proof.
  intros valid q did. induction es as [|e es IH]; intros s s' H E; cbn [run] in E; [now injection E as <-|].
  destruct (step valid q did s e) as [s1| |] eqn:Es; cbn [bindr] in E; try discriminate.
  eapply IH; [|exact E]. eapply step_bounded; eauto.
Qed.

(** One event, in any state the thread can be in. *)
Lemma step_exact : forall valid q did s e, vinv valid s -> bounded s -> channel_contract s e ->
  (step valid q did s e = Panic <-> crashes valid s e) /\ is_err (step valid q did s e) = false.
Proof.
  intros valid q did s e Hi Hb Hc. destruct e; cbn [step].
  - cbn [crashes]. unfold process_chain. destruct (parse valid (v_mem s) c) as [rq|x|] eqn:Ep.
    + assert (U : forall rq' h ds st, block_request valid (v_mem s) c rq' h ds st -> rq' = rq).
      { intros rq' h ds st B. assert (P : parse valid (v_mem s) c = Ok rq') by (apply parse_ok; eauto). congruence. }
      apply parse_ok in Ep as (h0 & ds0 & st0 & B0).
      assert (K : forall y, rq_type rq <> TGetId -> rq_type rq <> TOut ->
        (@Ok vstate y = Panic <-> exists rq head datas st, block_request valid (v_mem s) c rq head datas st /\
          ((rq_type rq = TGetId /\ datas = []) \/
           (rq_type rq = TOut /\ 2 ^ 32 <= total_len (rq_data rq) /\ total_len (rq_data rq) mod 512 = 0))) /\ is_err (@Ok vstate y) = false).
      { intros y N1 N2. split; [|reflexivity]. split; [discriminate|].
        intros (rq' & h & ds & st & B & Hx). apply U in B. subst rq'. destruct Hx as [[? _]|[? _]]; contradiction. }
      destruct (rq_type rq) eqn:Et; try (apply K; discriminate).
      * unfold process_read. destruct (negb _); [apply K; discriminate|].
        destruct (get_request_slot _ _ _ _). apply K; discriminate.
      * clear K. unfold process_write.
        assert (LM := request_len_mod (rq_data rq) 0 eq_refl). rewrite N.add_0_l in LM.
        set (total := total_len (rq_data rq)) in *.
        assert (W : (exists rq head datas st, block_request valid (v_mem s) c rq head datas st /\
          ((rq_type rq = TGetId /\ datas = []) \/
           (rq_type rq = TOut /\ 2 ^ 32 <= total_len (rq_data rq) /\ total_len (rq_data rq) mod 512 = 0))) <->
           2 ^ 32 <= total /\ total mod 512 = 0).
        { split.
          - intros (rq' & h & ds & st & B & Hx). apply U in B. subst rq'. destruct Hx as [[? _]|[_ Hx]]; [congruence|exact Hx].
          - intros Hx. exists rq, h0, ds0, st0. split; [exact B0|]. right. now split. }
        rewrite W. clear W.
        assert (Hm : total mod 2 ^ 32 mod SECTOR = total mod 512).
        { unfold SECTOR. change (2 ^ 32) with (512 * 2 ^ 23).
          rewrite N.mod_mul_r by discriminate. rewrite (N.mul_comm 512), N.mod_add by discriminate.
          apply N.mod_mod. discriminate. }
        rewrite LM, Hm. destruct (N.eqb_spec (total mod 512) 0) as [Z|Z]; cbn [negb].
        2:{ split; [|reflexivity]. split; [discriminate|]. intros [_ ?]. contradiction. }
        destruct (get_request_slot (total mod 2 ^ 32) rq (c_head c) (v_slots s)) as [id sls] eqn:Eg.
        assert (Hlt : total mod 2 ^ 32 < 2 ^ 32) by (apply N.mod_lt; discriminate).
        assert (Hbs := get_slot_bounded _ _ _ _ _ _ Hlt Eg Hb).
        destruct (get_slot_spec _ _ _ _ _ _ _ _ Hi Eg) as (G1 & G2 & G3 & sl & G4 & G5 & G6 & G7 & G8 & G9 & G10 & G11 & G12).
        rewrite (nth_error_nth _ _ _ G4).
        assert (Hsl : sl_len sl < 2 ^ 32).
        { rewrite Forall_forall in Hbs. apply Hbs. eapply nth_error_In; eauto. }
        destruct (gather_exact valid (v_mem s) (rq_data rq) (sl_buf sl) 0 true) as [X1 X2]; [lia|].
        fold total in X1. rewrite N.add_0_l, G12 in X1.
        assert (Y : gather valid (v_mem s) (sl_buf sl) 0 true (rq_data rq) = Panic <-> 2 ^ 32 <= total).
        { rewrite X1. rewrite N2Nat.id. split; intros Hx; [|lia].
          destruct (N.lt_ge_cases total (2 ^ 32)) as [Hs|Hs]; [|exact Hs].
          rewrite (N.mod_small _ _ Hs) in G11. lia. }
        destruct (gather valid (v_mem s) (sl_buf sl) 0 true (rq_data rq)) as [[buf ok]|x|] eqn:Ega; cbn [bindr].
        -- split.
           ++ split; [destruct ok; discriminate|]. intros [Hx _]. apply Y in Hx. discriminate.
           ++ now destruct ok.
        -- discriminate.
        -- split; [|reflexivity]. split; [|reflexivity]. intros _. split; [now apply Y|exact Z].
      * unfold process_flush. destruct (get_request_slot _ _ _ _). apply K; discriminate.
      * clear K. unfold process_get_device_id.
        assert (Ed : rq_data rq = [] <-> ds0 = []).
        { rewrite (br_data _ _ _ _ _ _ _ B0). destruct ds0; split; try reflexivity; discriminate. }
        assert (W : (exists rq head datas st, block_request valid (v_mem s) c rq head datas st /\
          ((rq_type rq = TGetId /\ datas = []) \/
           (rq_type rq = TOut /\ 2 ^ 32 <= total_len (rq_data rq) /\ total_len (rq_data rq) mod 512 = 0))) <-> rq_data rq = []).
        { split.
          - intros (rq' & h & ds & st & B & Hx). assert (rq' = rq) by now apply U in B. subst rq'.
            destruct Hx as [[_ ->]|[Hx _]]; [|congruence]. now rewrite (br_data _ _ _ _ _ _ _ B).
          - intros Hx. exists rq, h0, ds0, st0. split; [exact B0|]. left. split; [exact Et|now apply Ed]. }
        rewrite W. destruct (rq_data rq) as [|[a n] r].
        -- cbn. now split.
        -- cbn [index nth_error bindr]. split.
           ++ split; [|discriminate]. destruct (n <? ID_BYTES); [discriminate|]. destruct (gm_write _ _ _ _). discriminate.
           ++ destruct (n <? ID_BYTES); [reflexivity|]. now destruct (gm_write _ _ _ _).
    + split; [|reflexivity]. split; [discriminate|]. intros (rq & h & ds & st & B & _).
      assert (P : parse valid (v_mem s) c = Ok rq) by (apply parse_ok; eauto). congruence.
    + exfalso. eapply parse_no_panic; eauto.
  - destruct Hc as [Hin Hc]. destruct (out_slot _ _ _ Hi Hin) as (sl & Hs & Hu & (h & Hh) & Hv & Hl & Hr).
    unfold complete_one, index. rewrite Hs. cbn [bindr].
    assert (W : crashes valid s (EDone id success data) <->
      (is_in (sl_type sl) && success = true /\ exists before a n after,
       sl_data sl = before ++ (a, n) :: after /\ segs_valid valid before /\
       N.of_nat (length (sl_buf sl)) < 0 + total_len before + n)).
    { cbn [crashes]. split.
      - intros (-> & sl' & bf & a & n & af & E & Et & Ed & Hx). rewrite E in Hs. injection Hs as ->.
        split; [rewrite Et; reflexivity|]. exists bf, a, n, af. now rewrite N.add_0_l.
      - intros (E & bf & a & n & af & Ed & Hx). apply andb_true_iff in E as [E1 E2]. apply is_in_true in E1.
        split; [exact E2|]. exists sl, bf, a, n, af. rewrite N.add_0_l in Hx. now repeat split. }
    rewrite W. clear W. destruct (is_in (sl_type sl) && success) eqn:E.
    + cbn [set_buf sl_chain sl_type sl_buf sl_data sl_status]. rewrite Hh, E.
      apply andb_true_iff in E as [E1 E2]. apply is_in_true in E1.
      cbn [set_out set_slots v_mem].
      assert (L : length (splice (sl_buf sl) 0 data) = length (sl_buf sl)).
      { apply splice0_length. specialize (Hc E2 _ Hs E1). rewrite (so_buf _ _ _ Hi _ _ Hs). lia. }
      destruct (write_to_guest_exact valid (splice (sl_buf sl) 0 data) (sl_data sl) (v_mem s) 0) as [X1 X2]; [lia|].
      rewrite L in X1.
      destruct (write_to_guest valid (v_mem s) (splice (sl_buf sl) 0 data) 0 (sl_data sl)) as [[m ok]|x|]; cbn [bindr].
      * split; [|reflexivity]. split; [discriminate|]. intros [_ Hx]. apply X1 in Hx. discriminate.
      * discriminate.
      * split; [|reflexivity]. split; [|reflexivity]. intros _. split; [reflexivity|]. now apply X1.
    + rewrite Hh, E. cbn [bindr]. split; [|reflexivity]. split; [discriminate|]. intros [? _]. discriminate.
  - split; [|reflexivity]. split; [discriminate|intros []].
  - split; [|reflexivity]. split; [discriminate|intros []].
Qed.

(** The thread panics exactly on the events of [crashes], whatever happened
    before; on all others it goes on.  ([b] is the size of the buffers it starts
    with.) *)
Theorem C36_panics_exactly : forall valid q did m n b es,
  b < 2 ^ 32 -> along valid q did channel_contract (vinit m n b) es ->
  (run valid q did (vinit m n b) es = Panic <->
   exists before e after s, es = before ++ e :: after /\
     run valid q did (vinit m n b) before = Ok s /\ crashes valid s e) /\
  is_err (run valid q did (vinit m n b) es) = false.
Proof.
  intros valid q did m n b es Hb Ha.
  assert (B0 : bounded (vinit m n b)).
  { unfold bounded. cbn [vinit v_slots]. apply Forall_forall. intros sl Hs. apply repeat_spec in Hs. subst sl. exact Hb. }
  assert (I0 := vinit_inv valid m n b). revert Ha B0 I0. generalize (vinit m n b). intros s.
  revert s. induction es as [|e es IH]; intros s Ha B0 I0; cbn [run].
  - split; [|reflexivity]. split; [discriminate|]. intros (bf & e & af & s' & E & _). now destruct bf.
  - cbn [along] in Ha. destruct Ha as [Hc Ha].
    destruct (step_exact valid q did s e I0 B0 Hc) as [X1 X2].
    destruct (step valid q did s e) as [s1|x|] eqn:Es; cbn [bindr].
    + destruct (IH s1 (Ha _ eq_refl)) as [Y1 Y2].
      { eapply step_bounded; eauto. } { eapply step_inv; eauto. }
      split; [|exact Y2]. rewrite Y1. split.
      * intros (bf & e' & af & s' & -> & Hr & Hx). exists (e :: bf), e', af, s'. cbn [run]. rewrite Es. now repeat split.
      * intros (bf & e' & af & s' & E & Hr & Hx). destruct bf as [|e0 bf].
        -- injection E as <- <-. cbn [run] in Hr. injection Hr as <-. apply X1 in Hx. discriminate.
        -- injection E as <- ->. cbn [run] in Hr. rewrite Es in Hr. cbn [bindr] in Hr. now exists bf, e', af, s'.
    + discriminate.
    + split; [|reflexivity]. split; [|reflexivity]. intros _. exists [], e, es, s. repeat split. now apply X1.
Qed.

(** The request limits of [within_limits] exclude all of them. *)
Corollary C36_limits_exclude_crashes : forall valid s c,
  within_limits valid s (EPop c) -> ~ crashes valid s (EPop c).
Proof.
  intros valid s c H (rq & h & ds & st & B & Hx).
  assert (P : parse valid (v_mem s) c = Ok rq) by (apply parse_ok; eauto).
  destruct (H rq P) as [H1 H2]. destruct Hx as [[Ht Hd]|(_ & Hl & _)]; [|lia].
  apply (H2 Ht). rewrite (br_data _ _ _ _ _ _ _ B), Hd. reflexivity.
Qed.

(** Each kind of crash happens: the states of C36_refuted_get_id,
    C36_refuted_write_length and C36_refuted_read_length. *)
Example C36_exact_nonvacuous :
  crashes ex_valid (vinit ex_mem 1 512) (EPop (mk_chain 1 [mk_desc 32 16 false true; mk_desc 64 1 true false])) /\
  crashes ex_valid (vinit ex_mem 1 512) (EPop (mk_chain 1 [mk_desc 16 16 false true; mk_desc 1024 (2 ^ 31) false true;
    mk_desc 1024 (2 ^ 31) false true; mk_desc 64 1 true false])) /\
  ~ crashes ex_valid (vinit ex_mem 1 512) (EPop ex_write).
Proof.
  assert (G : forall c, channel_contract (vinit ex_mem 1 512) (EPop c)) by (intros c; exact Logic.I).
  assert (Bd : bounded (vinit ex_mem 1 512)) by (repeat constructor).
  assert (Iv := vinit_inv ex_valid ex_mem 1 512).
  split; [|split].
  - apply (step_exact ex_valid 8 [65] _ _ Iv Bd (G _)). vm_compute. reflexivity.
  - apply (step_exact ex_valid 8 [65] _ _ Iv Bd (G _)). vm_compute. reflexivity.
  - intros H. apply (step_exact ex_valid 8 [65] _ _ Iv Bd (G _)) in H. vm_compute in H. discriminate.
Qed.

Print Assumptions C36_panics_exactly.
Print Assumptions C36_limits_exclude_crashes.
