(** Proofs about the vhost request path. *)
From Coq Require Import List NArith Arith Bool Lia ZifyBool ZifyNat ZifyN Permutation.
From Verif Require Import Base BaseFacts ListFacts VhostModel VhostSpec.
Import ListNotations.
Local Open Scope N_scope.

(** ** Memory *)
Lemma range_length : forall a n, length (range a n) = n.
Proof. intros. unfold range. rewrite map_length, seq_length. reflexivity. Qed.

Lemma range_S : forall a n, range a (S n) = a :: range (a + 1) n.
Proof.
  intros. unfold range. cbn [seq map]. f_equal; [lia|].
  rewrite <- seq_shift, map_map. apply map_ext. intros. lia.
Qed.

Lemma in_range : forall a n x, In x (range a n) <-> a <= x < a + N.of_nat n.
Proof.
  intros. unfold range. rewrite in_map_iff. split.
  - intros (i & E & H). apply in_seq in H. lia.
  - intros H. exists (N.to_nat (x - a)). split; [lia|]. apply in_seq. lia.
Qed.

Lemma range_app : forall n1 n2 a, range a (n1 + n2) = range a n1 ++ range (a + N.of_nat n1) n2.
Proof.
  induction n1; intros; cbn [Nat.add].
  - cbn [app range map seq]. replace (a + N.of_nat 0) with a by lia. reflexivity.
  - rewrite !range_S. cbn [app]. f_equal. rewrite IHn1. f_equal. f_equal. lia.
Qed.

Lemma gm_read_some : forall valid m a n bs,
  gm_read valid m a n = Some bs <->
  (forall x, a <= x < a + N.of_nat n -> valid x = true) /\ bs = map m (range a n).
Proof.
  intros. unfold gm_read. destruct (forallb valid (range a n)) eqn:E.
  - rewrite forallb_forall in E. split.
    + intros H. injection H as <-. split; [|reflexivity]. intros x Hx. apply E, in_range, Hx.
    + intros [_ ->]. reflexivity.
  - split; [discriminate|]. intros [H _].
    assert (forallb valid (range a n) = true) as F.
    { apply forallb_forall. intros x Hx. apply H, in_range, Hx. }
    congruence.
Qed.

Lemma gm_read_length : forall valid m a n bs, gm_read valid m a n = Some bs -> length bs = n.
Proof. intros * H. apply gm_read_some in H as [_ ->]. rewrite map_length, range_length. reflexivity. Qed.

Lemma gm_write_same : forall valid bs m a m' ok, gm_write valid m a bs = (m', ok) ->
  same_except (fun x => a <= x < a + N.of_nat (length bs)) m m'.
Proof.
  induction bs; intros * H; cbn [gm_write] in H.
  - injection H as <- <-. intros x Hx. reflexivity.
  - destruct (valid a0); [|injection H as <- <-; intros x Hx; reflexivity].
    apply IHbs in H. intros x Hx. cbn [length] in Hx. rewrite H by lia.
    unfold gm_upd. destruct (N.eqb_spec x a0); [lia|reflexivity].
Qed.

Lemma gm_write_ok : forall valid bs m a m', gm_write valid m a bs = (m', true) ->
  map m' (range a (length bs)) = bs.
Proof.
  induction bs; intros * H; cbn [gm_write] in H; [reflexivity|].
  destruct (valid a0); [|discriminate]. cbn [length]. rewrite range_S. cbn [map].
  pose proof (gm_write_same _ _ _ _ _ _ H a0) as Hs.
  rewrite Hs by lia. unfold gm_upd. rewrite N.eqb_refl. f_equal.
  eapply IHbs. exact H.
Qed.

Lemma gm_write_valid : forall valid bs m a,
  snd (gm_write valid m a bs) = forallb valid (range a (length bs)).
Proof.
  induction bs; intros; [reflexivity|]. cbn [gm_write length]. rewrite range_S. cbn [forallb].
  destruct (valid a0); [apply IHbs|reflexivity].
Qed.

(** ** Parsing *)
Lemma parse_data_ok : forall t rest d l st,
  parse_data t d rest = Ok (l, st) <->
  exists ds unr, d :: rest = ds ++ st :: unr /\
    Forall (fun d => d_has_next d = true) ds /\ d_has_next st = false /\
    (is_in t = true -> Forall (fun d => d_write_only d = true) ds) /\
    l = map (fun d => (d_addr d, d_len d)) ds.
Proof.
  intros t. induction rest as [|d' rest IH]; intros d l st.
  - cbn [parse_data]. destruct (d_has_next d) eqn:E.
    + split.
      * destruct (check_data_desc d t); cbn [bindr]; discriminate.
      * intros (ds & unr & H & Hn & Hst & _). destruct ds as [|x [|? ?]]; try discriminate.
        injection H as Hd Hu. subst d. congruence.
    + split.
      * intros H. injection H as <- <-. exists [], []. repeat split; auto.
      * intros (ds & unr & H & Hn & Hst & _ & ->). destruct ds as [|x ds].
        -- injection H as ->. reflexivity.
        -- injection H as -> H. inversion Hn; subst. congruence.
  - cbn [parse_data]. destruct (d_has_next d) eqn:E.
    + unfold check_data_desc at 1. destruct (negb (d_write_only d) && is_in t) eqn:Ew.
      * cbn [bindr]. split; [discriminate|].
        intros (ds & unr & H & Hn & Hst & Hw & _). destruct ds as [|x ds].
        -- injection H as Hd Hu. subst d. congruence.
        -- injection H as -> H. apply andb_true_iff in Ew as [Ew Ei]. specialize (Hw Ei).
           inversion Hw; subst. rewrite H2 in Ew. discriminate.
      * cbn [bindr]. specialize (IH d').
        destruct (parse_data t d' rest) as [[l' st']| |]; cbn [bindr].
        -- split.
           ++ intros H. injection H as <- <-.
              destruct (proj1 (IH l' st') eq_refl) as (ds & unr & -> & Hn & Hst & Hw & ->).
              exists (d :: ds), unr. repeat split; auto.
              intros Hi. constructor; [|auto]. rewrite Hi in Ew. destruct (d_write_only d); auto.
           ++ intros (ds & unr & H & Hn & Hst & Hw & ->). destruct ds as [|x ds].
              ** injection H as -> _. congruence.
              ** injection H as -> H. inversion Hn; subst.
                 assert (Ok (l', st') = Ok (map (fun d => (d_addr d, d_len d)) ds, st)) as Eq.
                 { apply IH. exists ds, unr. repeat split; auto.
                   intros Hi. specialize (Hw Hi). inversion Hw; auto. }
                 injection Eq as -> ->. reflexivity.
        -- split; [discriminate|].
           intros (ds & unr & H & Hn & Hst & Hw & ->). destruct ds as [|x ds].
           { injection H as -> _. congruence. }
           injection H as -> H. inversion Hn; subst.
           assert (Err tag = Ok (map (fun d => (d_addr d, d_len d)) ds, st)) as Eq; [|discriminate].
           apply IH. exists ds, unr. repeat split; auto.
           intros Hi. specialize (Hw Hi). inversion Hw; auto.
        -- split; [discriminate|].
           intros (ds & unr & H & Hn & Hst & Hw & ->). destruct ds as [|x ds].
           { injection H as -> _. congruence. }
           injection H as -> H. inversion Hn; subst.
           assert (Panic = Ok (map (fun d => (d_addr d, d_len d)) ds, st)) as Eq; [|discriminate].
           apply IH. exists ds, unr. repeat split; auto.
           intros Hi. specialize (Hw Hi). inversion Hw; auto.
    + split.
      * intros H. injection H as <- <-. exists [], (d' :: rest). repeat split; auto.
      * intros (ds & unr & H & Hn & Hst & _ & ->). destruct ds as [|x ds].
        -- injection H as ->. reflexivity.
        -- injection H as -> H. inversion Hn; subst. congruence.
Qed.

Lemma parse_data_no_panic : forall t rest d, parse_data t d rest <> Panic.
Proof.
  intros t. induction rest as [|d' rest IH]; intros d; cbn [parse_data];
    destruct (d_has_next d); try discriminate; unfold check_data_desc at 1;
    destruct (negb (d_write_only d) && is_in t); cbn [bindr]; try discriminate.
  specialize (IH d'). destruct (parse_data t d' rest) as [[? ?]| |]; cbn [bindr]; congruence.
Qed.

Lemma check_status_ok : forall valid d, check_status_desc valid d = Ok tt <->
  d_write_only d = true /\ 1 <= d_len d /\ valid (d_addr d) = true.
Proof.
  intros. unfold check_status_desc. destruct (d_write_only d); cbn [negb].
  - destruct (N.ltb_spec (d_len d) 1).
    + split; [discriminate|]. intros (_ & ? & _). lia.
    + destruct (valid (d_addr d)); cbn [negb].
      * split; auto.
      * split; [discriminate|]. intros (_ & _ & ?). discriminate.
  - split; [discriminate|]. intros (? & _). discriminate.
Qed.

Lemma rtype_of_flush : forall v, rtype_of v = TFlush <-> v = 4.
Proof.
  intros. unfold rtype_of.
  destruct (N.eqb_spec v 0); [split; [discriminate|lia]|].
  destruct (N.eqb_spec v 1); [split; [discriminate|lia]|].
  destruct (N.eqb_spec v 4); [split; auto|].
  destruct (N.eqb_spec v 8); [split; [discriminate|lia]|].
  destruct (N.eqb_spec v 11); [split; [discriminate|lia]|].
  destruct (N.eqb_spec v 13); split; try discriminate; lia.
Qed.

Lemma is_in_true : forall t, is_in t = true <-> t = TIn.
Proof. destruct t; cbn; split; congruence. Qed.

Lemma parse_ok : forall valid m c rq, parse valid m c = Ok rq <->
  exists head datas st, block_request valid m c rq head datas st.
Proof.
  intros. unfold parse. destruct (c_descs c) as [|head rest] eqn:Ec; cbn [chain_next].
  { split; [discriminate|]. intros (h & ds & st & H). destruct (br_layout _ _ _ _ _ _ _ H) as (u & E).
    rewrite Ec in E. discriminate. }
  assert (Hsame : forall h ds st, block_request valid m c rq h ds st -> h = head /\ d_has_next head = true).
  { intros h ds st H. destruct (br_layout _ _ _ _ _ _ _ H) as (u & E). rewrite Ec in E.
    injection E as -> _. pose proof (br_linked _ _ _ _ _ _ _ H) as F. inversion F; auto. }
  destruct (d_write_only head) eqn:Ew.
  { split; [discriminate|]. intros (h & ds & st & H). destruct (Hsame _ _ _ H) as [-> _].
    pose proof (br_header_readable _ _ _ _ _ _ _ H). congruence. }
  destruct (gm_read valid m (d_addr head) 16) as [hb|] eqn:Eg.
  2:{ split; [discriminate|]. intros (h & ds & st & H). destruct (Hsame _ _ _ H) as [-> _].
      assert (gm_read valid m (d_addr head) 16 = Some (map m (range (d_addr head) 16))) as E.
      { apply gm_read_some. split; [|reflexivity]. intros x Hx.
        replace x with (d_addr head + (x - d_addr head)) by lia.
        apply (br_header_mapped _ _ _ _ _ _ _ H). lia. }
      congruence. }
  apply gm_read_some in Eg as [Hv Ehb].
  assert (E4 : firstn 4 hb = map m (range (d_addr head) 4)).
  { rewrite Ehb. change 16%nat with (4 + 12)%nat. rewrite range_app, map_app.
    rewrite firstn_app, map_length, range_length, Nat.sub_diag.
    rewrite firstn_all2 by (rewrite map_length, range_length; lia). apply app_nil_r. }
  assert (E8 : skipn 8 hb = map m (range (d_addr head + 8) 8)).
  { rewrite Ehb. change 16%nat with (8 + 8)%nat. rewrite range_app, map_app.
    rewrite skipn_app, map_length, range_length, Nat.sub_diag.
    rewrite skipn_all2 by (rewrite map_length, range_length; lia). reflexivity. }
  rewrite E4, E8. clear E4 E8 Ehb.
  set (ty := le_val (map m (range (d_addr head) 4))).
  set (sector := le_val (map m (range (d_addr head + 8) 8))).
  destruct ((ty =? 4) && negb (sector =? 0)) eqn:Ef.
  { split; [discriminate|]. intros (h & ds & st & H). destruct (Hsame _ _ _ H) as [-> _].
    pose proof (br_flush _ _ _ _ _ _ _ H) as F. rewrite (br_type _ _ _ _ _ _ _ H), (br_sector _ _ _ _ _ _ _ H) in F.
    fold ty sector in F. assert (sector = 0) by (apply F, rtype_of_flush; lia). lia. }
  destruct (d_has_next head) eqn:Ehn.
  2:{ cbn [chain_next]. split; [discriminate|]. intros (h & ds & st & H).
      destruct (Hsame _ _ _ H). congruence. }
  destruct rest as [|d rest']; cbn [chain_next].
  { split; [discriminate|]. intros (h & ds & st & H). destruct (br_layout _ _ _ _ _ _ _ H) as (u & E).
    rewrite Ec in E. destruct ds; discriminate. }
  assert (Hrest : forall l st, parse_data (rtype_of ty) d (if d_has_next d then rest' else []) = Ok (l, st)
             <-> parse_data (rtype_of ty) d rest' = Ok (l, st)).
  { intros. destruct (d_has_next d) eqn:En; [tauto|].
    destruct rest'; cbn [parse_data]; rewrite En; tauto. }
  assert (Hmain : forall l st, parse_data (rtype_of ty) d (if d_has_next d then rest' else []) = Ok (l, st) ->
     check_status_desc valid st = Ok tt ->
     exists datas, block_request valid m c (mk_request (rtype_of ty) l sector (d_addr st)) head datas st).
  { intros l st Hp Hs. apply Hrest in Hp. apply parse_data_ok in Hp as (ds & unr & E & Hn & Hst & Hw & ->).
    apply check_status_ok in Hs as (S1 & S2 & S3). exists ds.
    constructor; cbn [rq_type rq_sector rq_data rq_status]; auto.
    - exists unr. rewrite Ec, E. reflexivity.
    - intros i Hi. apply Hv. lia.
    - intros F. apply rtype_of_flush in F. lia.
    - intros F. apply Hw, is_in_true, F. }
  split.
  - destruct (parse_data (rtype_of ty) d (if d_has_next d then rest' else [])) as [[l st]| |] eqn:Ep;
      cbn [bindr]; try discriminate.
    destruct (check_status_desc valid st) as [[]| |] eqn:Es; cbn [bindr]; try discriminate.
    intros H. injection H as <-. destruct (Hmain l st eq_refl Es) as (ds & B). eauto.
  - intros (h & ds & st & H). destruct (Hsame _ _ _ H) as [-> _].
    destruct (br_layout _ _ _ _ _ _ _ H) as (u & E). rewrite Ec in E. injection E as E.
    assert (Hp : parse_data (rtype_of ty) d rest' = Ok (rq_data rq, st)).
    { apply parse_data_ok. exists ds, u. repeat split; auto.
      - pose proof (br_linked _ _ _ _ _ _ _ H) as F. inversion F; auto.
      - apply H.
      - intros Hi. apply (br_writable _ _ _ _ _ _ _ H). rewrite (br_type _ _ _ _ _ _ _ H).
        apply is_in_true, Hi.
      - apply H. }
    apply Hrest in Hp. rewrite Hp. cbn [bindr].
    assert (Hs : check_status_desc valid st = Ok tt).
    { apply check_status_ok. split; [apply H|]. split; apply H. }
    rewrite Hs. cbn [bindr]. f_equal. destruct rq as [t l se sa]. 
    pose proof (br_type _ _ _ _ _ _ _ H) as B1. pose proof (br_sector _ _ _ _ _ _ _ H) as B2.
    pose proof (br_status _ _ _ _ _ _ _ H) as B3. cbn [rq_type rq_sector rq_status rq_data] in *.
    rewrite B1, B2, B3. reflexivity.
Qed.

Lemma parse_no_panic : forall valid m c, parse valid m c <> Panic.
Proof.
  intros. unfold parse. destruct (chain_next (c_descs c)) as [[head rest]|]; [|discriminate].
  destruct (d_write_only head); [discriminate|].
  destruct (gm_read valid m (d_addr head) 16); [|discriminate].
  match goal with |- (if ?b then _ else _) <> _ => destruct b end; [discriminate|].
  destruct (chain_next rest) as [[d r]|]; [|discriminate].
  match goal with |- bindr (parse_data ?t ?d ?r) _ <> _ =>
    pose proof (parse_data_no_panic t r d); destruct (parse_data t d r) as [[? st]| |] end;
    cbn [bindr]; try congruence.
  unfold check_status_desc. destruct (negb (d_write_only st)); [discriminate|].
  destruct (d_len st <? 1); [discriminate|]. destruct (negb (valid (d_addr st))); discriminate.
Qed.

Lemma parse_status_valid : forall valid m c rq, parse valid m c = Ok rq -> valid (rq_status rq) = true.
Proof.
  intros * H. apply parse_ok in H as (h & ds & st & B).
  rewrite (br_status _ _ _ _ _ _ _ B). apply B.
Qed.

(** ** Slots *)
Lemma request_len_total : forall l acc, acc + total_len l < 2 ^ 32 ->
  request_len acc l = acc + total_len l.
Proof.
  induction l as [|[a n] l IH]; intros acc H; cbn [request_len total_len fold_right] in *.
  - lia.
  - change (fold_right (fun '(_, n) t => n + t) 0 l) with (total_len l) in *.
    rewrite N.mod_small by lia. rewrite IH by lia. lia.
Qed.

Lemma request_len_mod : forall l acc, acc < 2 ^ 32 -> request_len acc l = (acc + total_len l) mod 2 ^ 32.
Proof.
  induction l as [|[a n] l IH]; intros acc H; cbn [request_len total_len fold_right] in *.
  - rewrite N.add_0_r. rewrite N.mod_small; auto.
  - change (fold_right (fun '(_, n) t => n + t) 0 l) with (total_len l) in *.
    rewrite IH by (apply N.mod_lt; discriminate).
    rewrite N.add_mod_idemp_l by discriminate. f_equal. lia.
Qed.

Definition good_slot (valid : N -> bool) (sl : slot) : Prop :=
  (exists h, sl_chain sl = Some h) /\ valid (sl_status sl) = true /\
  sl_reqlen sl <= sl_len sl /\
  (sl_type sl = TIn -> sl_reqlen sl = request_len 0 (sl_data sl)).

Record slots_ok (valid : N -> bool) (l : list slot) (out : list nat) : Prop := {
  so_buf : forall i sl, nth_error l i = Some sl -> length (sl_buf sl) = N.to_nat (sl_len sl);
  so_nodup : NoDup out;
  so_out : forall i, In i out <-> exists sl, nth_error l i = Some sl /\ sl_used sl = true;
  so_good : forall i sl, nth_error l i = Some sl -> sl_used sl = true -> good_slot valid sl }.

Lemma slots_ok_issue : forall valid l out l' id sl, slots_ok valid l out ->
  ~ In id out -> nth_error l' id = Some sl -> sl_used sl = true -> good_slot valid sl ->
  length (sl_buf sl) = N.to_nat (sl_len sl) ->
  (forall j, j <> id -> nth_error l' j = nth_error l j) ->
  slots_ok valid l' (out ++ [id]).
Proof.
  intros * H Hn E Hu Hg Hb Ho. constructor.
  - intros i x Hx. destruct (Nat.eq_dec i id) as [->|Ne].
    + rewrite E in Hx. injection Hx as <-. exact Hb.
    + rewrite Ho in Hx by exact Ne. eapply so_buf; eauto.
  - apply NoDup_Add with (a := id) (l := out).
    + replace (out ++ [id]) with (out ++ id :: []) by reflexivity.
      pose proof (Add_app id out []) as A. rewrite app_nil_r in A. exact A.
    + split; [eapply so_nodup; eauto|exact Hn].
  - intros i. rewrite in_app_iff. cbn [In]. destruct (Nat.eq_dec i id) as [->|Ne].
    + split; [|tauto]. intros _. exists sl. auto.
    + rewrite Ho by exact Ne. rewrite (so_out _ _ _ H). split; [intros [?|[?|[]]]; [auto|congruence]|auto].
  - intros i x Hx Hux. destruct (Nat.eq_dec i id) as [->|Ne].
    + rewrite E in Hx. injection Hx as <-. exact Hg.
    + rewrite Ho in Hx by exact Ne. eapply so_good; eauto.
Qed.

Lemma in_remove_out : forall id l x, In x (remove_out id l) <-> In x l /\ x <> id.
Proof.
  intros. unfold remove_out. rewrite filter_In. rewrite negb_true_iff, Nat.eqb_neq. tauto.
Qed.

Lemma remove_out_app : forall id out, ~ In id out -> remove_out id (out ++ [id]) = out.
Proof.
  intros. unfold remove_out. rewrite filter_app. cbn [filter]. rewrite Nat.eqb_refl. cbn [negb].
  rewrite app_nil_r. induction out; [reflexivity|]. cbn [filter].
  destruct (Nat.eqb_spec a id); cbn [negb]; [exfalso; apply H; left; auto|].
  f_equal. apply IHout. intros F. apply H. right. exact F.
Qed.

Lemma slots_ok_free : forall valid l out l' id sl, slots_ok valid l out ->
  nth_error l' id = Some sl -> sl_used sl = false ->
  length (sl_buf sl) = N.to_nat (sl_len sl) ->
  (forall j, j <> id -> nth_error l' j = nth_error l j) ->
  slots_ok valid l' (remove_out id out).
Proof.
  intros * H E Hu Hb Ho. constructor.
  - intros i x Hx. destruct (Nat.eq_dec i id) as [->|Ne].
    + rewrite E in Hx. injection Hx as <-. exact Hb.
    + rewrite Ho in Hx by exact Ne. eapply so_buf; eauto.
  - apply NoDup_filter. eapply so_nodup; eauto.
  - intros i. rewrite in_remove_out. destruct (Nat.eq_dec i id) as [->|Ne].
    + split; [tauto|]. intros (x & Hx & Hux). rewrite E in Hx. congruence.
    + rewrite Ho by exact Ne. rewrite <- (so_out _ _ _ H). tauto.
  - intros i x Hx Hux. destruct (Nat.eq_dec i id) as [->|Ne].
    + rewrite E in Hx. injection Hx as <-. congruence.
    + rewrite Ho in Hx by exact Ne. eapply so_good; eauto.
Qed.

Definition contrib (sl : slot) : list N :=
  if sl_used sl then match sl_chain sl with Some h => [h] | None => [] end else [].

Lemma in_flight_contrib : forall s, in_flight s = flat_map contrib (v_slots s).
Proof. reflexivity. Qed.

Lemma contrib_set_nth : forall l i x y, nth_error l i = Some y ->
  Permutation (contrib y ++ flat_map contrib (set_nth i x l)) (contrib x ++ flat_map contrib l).
Proof.
  induction l as [|z l IH]; intros [|i] x y H; cbn [nth_error] in H; try discriminate.
  - injection H as ->. cbn [set_nth flat_map]. rewrite !app_assoc.
    apply Permutation_app_tail, Permutation_app_comm.
  - cbn [set_nth flat_map]. specialize (IH i x y H).
    rewrite app_assoc. rewrite (Permutation_app_comm (contrib y) (contrib z)).
    rewrite <- app_assoc. rewrite IH. rewrite !app_assoc.
    apply Permutation_app_tail, Permutation_app_comm.
Qed.

Lemma find_slot_spec : forall l i len k, find_slot i len l = Some k ->
  (i <= k)%nat /\ exists sl, nth_error l (k - i) = Some sl /\ len <= sl_len sl /\ sl_used sl = false.
Proof.
  induction l as [|sl l IH]; intros i len k H; cbn [find_slot] in H; [discriminate|].
  destruct ((len <=? sl_len sl) && negb (sl_used sl)) eqn:E.
  - injection H as <-. split; [lia|]. exists sl. rewrite Nat.sub_diag. cbn [nth_error].
    apply andb_true_iff in E as [E1 E2]. apply negb_true_iff in E2. repeat split; auto. lia.
  - apply IH in H as (Hle & x & Hx & Hl). split; [lia|]. exists x.
    replace (k - i)%nat with (S (k - S i)) by lia. auto.
Qed.

Lemma get_slot_spec : forall valid len rq head l out id l',
  slots_ok valid l out -> get_request_slot len rq head l = (id, l') ->
  ~ In id out /\ (forall j, j <> id -> nth_error l' j = nth_error l j) /\
  Permutation (flat_map contrib l') (head :: flat_map contrib l) /\
  exists sl, nth_error l' id = Some sl /\ sl_used sl = true /\ sl_type sl = rq_type rq /\
    sl_chain sl = Some head /\ sl_data sl = rq_data rq /\ sl_status sl = rq_status rq /\
    sl_reqlen sl = len /\ len <= sl_len sl /\ length (sl_buf sl) = N.to_nat (sl_len sl).
Proof.
  intros * H E. unfold get_request_slot in E. destruct (find_slot 0 len l) as [i|] eqn:Ef.
  - injection E as <- <-. apply find_slot_spec in Ef as (_ & sl & Hs & Hl & Hu).
    rewrite Nat.sub_0_r in Hs.
    assert (Hlt : (i < length l)%nat) by (apply nth_error_Some; congruence).
    rewrite (nth_error_nth _ _ _ Hs). split; [|split; [|split]].
    + intros F. apply (so_out _ _ _ H) in F as (x & Hx & Hux). congruence.
    + intros j Hj. apply nth_error_set_nth_neq. auto.
    + pose proof (contrib_set_nth l i (fill_slot len rq head sl) sl Hs) as P.
      unfold contrib at 1 in P. rewrite Hu in P. cbn [app] in P. rewrite P.
      unfold contrib at 1. cbn [fill_slot sl_used sl_chain]. reflexivity.
    + exists (fill_slot len rq head sl). rewrite nth_error_set_nth_eq by exact Hlt.
      cbn [fill_slot sl_used sl_type sl_chain sl_data sl_status sl_reqlen sl_len sl_buf].
      repeat split; auto. eapply so_buf; eauto.
  - injection E as <- <-. split; [|split; [|split]].
    + intros F. apply (so_out _ _ _ H) in F as (x & Hx & _).
      assert (length l < length l)%nat by (apply nth_error_Some; congruence). lia.
    + intros j Hj. destruct (Nat.lt_ge_cases j (length l)).
      * apply nth_error_app1. auto.
      * rewrite (proj2 (nth_error_None l j)) by lia. apply nth_error_None.
        rewrite app_length. cbn [length]. lia.
    + rewrite flat_map_app. cbn [flat_map]. unfold contrib at 2.
      cbn [fill_slot sl_used sl_chain app]. symmetry. apply Permutation_cons_append.
    + exists (fill_slot len rq head (new_slot len)). rewrite nth_error_app2 by lia.
      rewrite Nat.sub_diag. cbn [nth_error].
      cbn [fill_slot new_slot sl_used sl_type sl_chain sl_data sl_status sl_reqlen sl_len sl_buf].
      repeat split; auto; [lia|]. apply repeat_length.
Qed.

(** ** Effects of single steps *)
Definition in_queue (q head : N) : list N := if head <? q then [head] else [].

Lemma add_used_used : forall q h s, v_used (add_used q h s) = v_used s ++ in_queue q h.
Proof.
  intros. unfold add_used, in_queue. destruct (h <? q); cbn [set_used v_used]; auto.
  symmetry. apply app_nil_r.
Qed.
Lemma add_used_rest : forall q h s, let s' := add_used q h s in
  v_mem s' = v_mem s /\ v_slots s' = v_slots s /\ v_ops s' = v_ops s /\ v_out s' = v_out s /\
  v_pend s' = v_pend s /\ v_signals s' = v_signals s.
Proof. intros. unfold s', add_used. destruct (h <? q); cbn; auto 10. Qed.

Lemma complete_io_effect : forall valid q h a st s, valid a = true ->
  let s' := complete_io valid q h a st s in
  v_mem s' = gm_upd (v_mem s) a st /\ v_slots s' = v_slots s /\ v_ops s' = v_ops s /\
  v_out s' = v_out s /\ v_used s' = v_used s ++ in_queue q h /\ v_pend s' = true /\
  v_signals s' = v_signals s.
Proof.
  intros * H. unfold complete_io. cbn [gm_write]. rewrite H.
  cbn [set_pend v_mem]. cbv zeta.
  match goal with |- context [add_used q h ?x] => set (y := x) end.
  pose proof (add_used_rest q h y) as R. cbv zeta in R.
  destruct R as (-> & -> & -> & -> & -> & ->). rewrite add_used_used. repeat split.
Qed.

Lemma nslice_ok : forall buf pos len r, nslice buf pos len = Ok r ->
  pos + len <= N.of_nat (length buf) /\ length r = N.to_nat len /\
  r = firstn (N.to_nat len) (skipn (N.to_nat pos) buf).
Proof.
  intros * H. unfold nslice in H. destruct (N.leb_spec (pos + len) (N.of_nat (length buf))); [|discriminate].
  injection H as <-. repeat split; auto. rewrite firstn_length, skipn_length. lia.
Qed.

Lemma gather_length : forall valid m l buf pos ok buf' ok',
  gather valid m buf pos ok l = Ok (buf', ok') -> length buf' = length buf.
Proof.
  induction l as [|[a n] l IH]; intros * H; cbn [gather] in H; [injection H as <- <-; auto|].
  destruct (nslice buf pos n) as [ch| |] eqn:E; cbn [bindr] in H; try discriminate.
  apply nslice_ok in E as (E1 & _ & _).
  destruct (gm_read valid m a (N.to_nat n)) as [bs|] eqn:Eg.
  - apply IH in H. rewrite H. apply splice_length. rewrite (gm_read_length _ _ _ _ _ Eg). lia.
  - apply IH in H. exact H.
Qed.

Definition vinv (valid : N -> bool) (s : vstate) : Prop := slots_ok valid (v_slots s) (v_out s).

(** A popped chain is either finished at once or handed to the channel. *)
Record finished_at_once (valid : N -> bool) (q head : N) (s s' : vstate) : Prop := {
  fa_ops : v_ops s' = v_ops s;
  fa_out : v_out s' = v_out s;
  fa_used : v_used s' = v_used s ++ in_queue q head;
  fa_flight : Permutation (in_flight s') (in_flight s);
  fa_keep : forall i, In i (v_out s) -> nth_error (v_slots s') i = nth_error (v_slots s) i;
  fa_inv : vinv valid s' }.

Record handed_over (valid : N -> bool) (head : N) (rq : request) (s s' : vstate) (o : vop) : Prop := {
  ho_ops : v_ops s' = v_ops s ++ [o];
  ho_out : v_out s' = v_out s ++ [vop_id o];
  ho_new : ~ In (vop_id o) (v_out s);
  ho_used : v_used s' = v_used s;
  ho_mem : v_mem s' = v_mem s;
  ho_pend : v_pend s' = v_pend s;
  ho_flight : Permutation (in_flight s') (head :: in_flight s);
  ho_keep : forall i, In i (v_out s) -> nth_error (v_slots s') i = nth_error (v_slots s) i;
  ho_slot : exists sl, nth_error (v_slots s') (vop_id o) = Some sl /\ sl_type sl = rq_type rq /\
      sl_chain sl = Some head /\ sl_data sl = rq_data rq /\ sl_status sl = rq_status rq /\
      sl_reqlen sl = match o with VFlush _ => 0 | _ => request_len 0 (rq_data rq) end;
  ho_inv : vinv valid s' }.

Lemma complete_io_finished : forall valid q h a st s, vinv valid s -> valid a = true ->
  finished_at_once valid q h s (complete_io valid q h a st s).
Proof.
  intros * Hi Ha. destruct (complete_io_effect valid q h a st s Ha) as (E1 & E2 & E3 & E4 & E5 & _).
  constructor; auto.
  - rewrite !in_flight_contrib, E2. reflexivity.
  - intros. rewrite E2. reflexivity.
  - unfold vinv. rewrite E2, E4. exact Hi.
Qed.

Lemma vinv_mem : forall valid m s, vinv valid s -> vinv valid (set_mem m s).
Proof. intros * H. exact H. Qed.

Lemma process_read_effect : forall valid q rq head s s', vinv valid s ->
  valid (rq_status rq) = true -> rq_type rq = TIn ->
  process_read valid q rq head s = Ok s' ->
  (request_len 0 (rq_data rq) mod SECTOR <> 0 /\ s' = complete_io valid q head (rq_status rq) S_IOERR s) \/
  (request_len 0 (rq_data rq) mod SECTOR = 0 /\ exists id,
     handed_over valid head rq s s' (VRead (rq_sector rq) (request_len 0 (rq_data rq) / SECTOR) id)).
Proof.
  intros * Hi Hv Ht H. unfold process_read in H.
  destruct (request_len 0 (rq_data rq) mod SECTOR =? 0) eqn:E; cbn [negb] in H.
  2:{ left. injection H as <-. split; [lia|reflexivity]. }
  right. split; [lia|].
  destruct (get_request_slot (request_len 0 (rq_data rq)) rq head (v_slots s)) as [id sls] eqn:Eg.
  injection H as <-. exists id.
  destruct (get_slot_spec _ _ _ _ _ _ _ _ Hi Eg) as (G1 & G2 & G3 & sl & G4 & G5 & G6 & G7 & G8 & G9 & G10 & G11 & G12).
  constructor; cbn [vop_id emit set_slots v_ops v_out v_used v_mem v_slots v_pend]; auto.
  - intros i Hin. apply G2. intros ->. exact (G1 Hin).
  - exists sl. auto 10.
  - unfold vinv. cbn [emit set_slots v_slots v_out vop_id].
    eapply slots_ok_issue; eauto. split; [eauto|]. split; [congruence|]. split; [lia|]. congruence.
Qed.

Lemma process_flush_effect : forall valid rq head s s', vinv valid s ->
  valid (rq_status rq) = true -> rq_type rq = TFlush ->
  process_flush rq head s = Ok s' ->
  exists id, handed_over valid head rq s s' (VFlush id).
Proof.
  intros * Hi Hv Ht H. unfold process_flush in H.
  destruct (get_request_slot 0 rq head (v_slots s)) as [id sls] eqn:Eg.
  injection H as <-. exists id.
  destruct (get_slot_spec _ _ _ _ _ _ _ _ Hi Eg) as (G1 & G2 & G3 & sl & G4 & G5 & G6 & G7 & G8 & G9 & G10 & G11 & G12).
  constructor; cbn [vop_id emit set_slots v_ops v_out v_used v_mem v_slots v_pend]; auto.
  - intros i Hin. apply G2. intros ->. exact (G1 Hin).
  - exists sl. auto 10.
  - unfold vinv. cbn [emit set_slots v_slots v_out vop_id].
    eapply slots_ok_issue; eauto. split; [eauto|]. split; [congruence|]. split; [lia|]. congruence.
Qed.

Lemma process_write_effect : forall valid q rq head s s', vinv valid s ->
  valid (rq_status rq) = true -> rq_type rq = TOut ->
  process_write valid q rq head s = Ok s' ->
  (finished_at_once valid q head s s' /\ v_mem s' = gm_upd (v_mem s) (rq_status rq) S_IOERR /\ v_pend s' = true) \/
  (request_len 0 (rq_data rq) mod SECTOR = 0 /\ exists id buf0 buf,
     (request_len 0 (rq_data rq) <= N.of_nat (length buf0)) /\
     gather valid (v_mem s) buf0 0 true (rq_data rq) = Ok (buf, true) /\
     handed_over valid head rq s s'
       (VWrite (rq_sector rq) (request_len 0 (rq_data rq) / SECTOR) id
          (firstn (N.to_nat (request_len 0 (rq_data rq))) buf))).
Proof.
  intros * Hi Hv Ht H. unfold process_write in H.
  destruct (request_len 0 (rq_data rq) mod SECTOR =? 0) eqn:E; cbn [negb] in H.
  2:{ left. injection H as <-. split; [apply complete_io_finished; auto|].
      destruct (complete_io_effect valid q head (rq_status rq) S_IOERR s Hv) as (? & _ & _ & _ & _ & ? & _). auto. }
  destruct (get_request_slot (request_len 0 (rq_data rq)) rq head (v_slots s)) as [id sls] eqn:Eg.
  destruct (get_slot_spec _ _ _ _ _ _ _ _ Hi Eg) as (G1 & G2 & G3 & sl & G4 & G5 & G6 & G7 & G8 & G9 & G10 & G11 & G12).
  rewrite (nth_error_nth _ _ _ G4) in H.
  destruct (gather valid (v_mem s) (sl_buf sl) 0 true (rq_data rq)) as [[buf ok]| |] eqn:Ega;
    cbn [bindr] in H; try discriminate.
  pose proof (gather_length _ _ _ _ _ _ _ _ Ega) as Hgl.
  assert (Hid : (id < length sls)%nat) by (apply nth_error_Some; congruence).
  pose proof (contrib_set_nth sls id (set_buf buf sl) sl G4) as P.
  replace (contrib (set_buf buf sl)) with (contrib sl) in P by reflexivity.
  apply Permutation_app_inv_l in P.
  assert (Hok : slots_ok valid (set_nth id (set_buf buf sl) sls) (v_out s ++ [id])).
  { eapply slots_ok_issue with (sl := set_buf buf sl); eauto.
    - apply nth_error_set_nth_eq. exact Hid.
    - split; [cbn; eauto|]. cbn [set_buf sl_status sl_reqlen sl_len sl_type sl_data].
      split; [congruence|]. split; [lia|]. congruence.
    - cbn [set_buf sl_buf sl_len]. congruence.
    - intros j Hj. rewrite nth_error_set_nth_neq by auto. apply G2, Hj. }
  destruct ok.
  - right. split; [lia|]. injection H as <-. exists id, (sl_buf sl), buf.
    split; [rewrite G12; lia|]. split; [exact Ega|].
    constructor; cbn [vop_id emit set_slots v_ops v_out v_used v_mem v_slots v_pend]; auto.
    + rewrite !in_flight_contrib. cbn [emit set_slots v_slots]. rewrite P. exact G3.
    + intros i Hin. rewrite nth_error_set_nth_neq by (intros ->; auto). apply G2. intros ->. auto.
    + exists (set_buf buf sl). rewrite nth_error_set_nth_eq by exact Hid.
      cbn [set_buf sl_type sl_chain sl_data sl_status sl_reqlen]. auto 10.
  - left. injection H as <-.
    set (s1 := set_slots (set_nth id (set_buf buf sl) sls) s).
    destruct (complete_io_effect valid q head (rq_status rq) S_IOERR s1 Hv) as (C1 & C2 & C3 & C4 & C5 & C6 & C7).
    set (s2 := complete_io valid q head (rq_status rq) S_IOERR s1) in *.
    assert (N2 : nth id (v_slots s2) (new_slot 0) = set_buf buf sl).
    { rewrite C2. cbn [s1 set_slots v_slots]. apply nth_set_nth_eq. exact Hid. }
    assert (L2 : v_slots (put_request_slot id s2) = set_nth id (set_used_flag false (set_buf buf sl)) (v_slots s2)).
    { unfold put_request_slot. rewrite N2. reflexivity. }
    assert (Hid2 : (id < length (v_slots s2))%nat).
    { rewrite C2. cbn [s1 set_slots v_slots]. rewrite set_nth_length. exact Hid. }
    assert (E2 : nth_error (v_slots s2) id = Some (set_buf buf sl)).
    { rewrite C2. cbn [s1 set_slots v_slots]. apply nth_error_set_nth_eq. exact Hid. }
    split; [|split].
    + constructor.
      * cbn [put_request_slot set_slots v_ops]. rewrite C3. reflexivity.
      * cbn [put_request_slot set_slots v_out]. rewrite C4. reflexivity.
      * cbn [put_request_slot set_slots v_used]. rewrite C5. reflexivity.
      * rewrite !in_flight_contrib, L2.
        pose proof (contrib_set_nth _ id (set_used_flag false (set_buf buf sl)) _ E2) as P2.
        unfold contrib at 1 3 in P2. cbn [set_used_flag set_buf sl_used sl_chain] in P2.
        rewrite G5, G7 in P2. cbn [app] in P2.
        rewrite C2 in P2. cbn [s1 set_slots v_slots] in P2. rewrite P in P2. rewrite G3 in P2.
        apply Permutation_cons_inv in P2. rewrite C2. exact P2.
      * intros i Hin. rewrite L2. rewrite nth_error_set_nth_neq by (intros ->; auto). rewrite C2.
        cbn [s1 set_slots v_slots]. rewrite nth_error_set_nth_neq by (intros ->; auto).
        apply G2. intros ->. auto.
      * unfold vinv. cbn [put_request_slot set_slots v_out]. rewrite C4.
        cbn [s1 set_slots v_out].
        replace (v_out s) with (remove_out id (v_out s ++ [id])) by (apply remove_out_app; auto).
        change (v_slots (set_slots (set_nth id (set_used_flag false (nth id (v_slots s2) (new_slot 0))) (v_slots s2)) s2))
          with (v_slots (put_request_slot id s2)).
        rewrite L2.
        eapply slots_ok_free with (sl := set_used_flag false (set_buf buf sl)); [exact Hok| | | |].
        -- apply nth_error_set_nth_eq. exact Hid2.
        -- reflexivity.
        -- cbn [set_used_flag set_buf sl_buf sl_len]. congruence.
        -- intros j Hj. rewrite nth_error_set_nth_neq by auto. rewrite C2. reflexivity.
    + cbn [put_request_slot set_slots v_mem]. exact C1.
    + cbn [put_request_slot set_slots v_pend]. exact C6.
Qed.

Lemma process_get_id_effect : forall valid q did rq head s s', vinv valid s ->
  valid (rq_status rq) = true ->
  process_get_device_id valid q did rq head s = Ok s' ->
  finished_at_once valid q head s s' /\ v_pend s' = true.
Proof.
  intros * Hi Hv H. unfold process_get_device_id in H.
  destruct (index (rq_data rq) 0) as [[a n]| |]; cbn [bindr] in H; try discriminate.
  destruct (n <? ID_BYTES).
  - injection H as <-. split; [apply complete_io_finished; auto|].
    apply (complete_io_effect valid q head (rq_status rq) S_IOERR s Hv).
  - destruct (gm_write valid (v_mem s) a (id_bytes did)) as [m ok]. injection H as <-.
    split; [|apply complete_io_effect, Hv].
    destruct (complete_io_finished valid q head (rq_status rq) (if ok then S_OK else S_IOERR)
                (set_mem m s) (vinv_mem _ _ _ Hi) Hv) as [A B C D E F].
    constructor; auto.
Qed.

(** What happens to one popped chain. *)
Lemma process_chain_effect : forall valid q did c s s', vinv valid s ->
  process_chain valid q did c s = Ok s' ->
  finished_at_once valid q (c_head c) s s' \/
  exists rq o, parse valid (v_mem s) c = Ok rq /\ handed_over valid (c_head c) rq s s' o.
Proof.
  intros * Hi H. unfold process_chain in H.
  destruct (parse valid (v_mem s) c) as [rq|e|] eqn:Ep; [|left|discriminate].
  - pose proof (parse_status_valid _ _ _ _ Ep) as Hv.
    destruct (rq_type rq) eqn:Et.
    + destruct (process_read_effect _ _ _ _ _ _ Hi Hv Et H) as [[_ ->]|(_ & id & Hh)].
      * left. apply complete_io_finished; auto.
      * right. eauto.
    + destruct (process_write_effect _ _ _ _ _ _ Hi Hv Et H) as [[? _]|(_ & id & b0 & b & _ & _ & Hh)].
      * left. auto.
      * right. eauto.
    + destruct (process_flush_effect _ _ _ _ _ Hi Hv Et H) as (id & Hh). right. eauto.
    + left. eapply process_get_id_effect; eauto.
    + left. injection H as <-. apply complete_io_finished; auto.
    + left. injection H as <-. apply complete_io_finished; auto.
    + left. injection H as <-. apply complete_io_finished; auto.
  - injection H as <-. unfold complete_bad_chain.
    pose proof (add_used_rest q (c_head c) s) as R. cbv zeta in R.
    destruct R as (R1 & R2 & R3 & R4 & _).
    constructor; auto.
    + apply add_used_used.
    + rewrite !in_flight_contrib, R2. reflexivity.
    + intros. rewrite R2. reflexivity.
    + unfold vinv. rewrite R2, R4. exact Hi.
Qed.

(** ** Completions *)
Lemma splice0_length : forall (buf data : list byte), (length data <= length buf)%nat ->
  length (splice buf 0 data) = length buf.
Proof. intros. apply splice_length. lia. Qed.

Record completed (valid : N -> bool) (q : N) (id : nat) (sl : slot) (s s' : vstate) : Prop := {
  co_ops : v_ops s' = v_ops s;
  co_out : v_out s' = remove_out id (v_out s);
  co_used : exists head, sl_chain sl = Some head /\ v_used s' = v_used s ++ in_queue q head /\
     Permutation (in_flight s) (head :: in_flight s');
  co_keep : forall i, i <> id -> nth_error (v_slots s') i = nth_error (v_slots s) i;
  co_pend : v_pend s' = true;
  co_inv : vinv valid s' }.

Lemma complete_one_effect : forall valid q id ok data s s' sl, vinv valid s ->
  In id (v_out s) -> nth_error (v_slots s) id = Some sl ->
  (ok = true -> sl_type sl = TIn -> N.of_nat (length data) = sl_reqlen sl) ->
  complete_one valid q id ok data s = Ok s' ->
  completed valid q id sl s s' /\
  exists m1 wok,
    (if is_in (sl_type sl) && ok
     then write_to_guest valid (v_mem s) (splice (sl_buf sl) 0 data) 0 (sl_data sl)
     else Ok (v_mem s, true)) = Ok (m1, wok) /\
    v_mem s' = gm_upd m1 (sl_status sl) (if ok && wok then S_OK else S_IOERR).
Proof.
  intros * Hi Hin Hs Hc H. unfold complete_one in H. unfold index in H. rewrite Hs in H. cbn [bindr] in H.
  assert (Hu : sl_used sl = true).
  { apply (so_out _ _ _ Hi) in Hin as (x & Hx & ?). congruence. }
  destruct (so_good _ _ _ Hi _ _ Hs Hu) as ((head & Hh) & Hv & Hl & Hr).
  pose proof (so_buf _ _ _ Hi _ _ Hs) as Hb.
  assert (Hid : (id < length (v_slots s))%nat) by (apply nth_error_Some; congruence).
  set (sl1 := if is_in (sl_type sl) && ok then set_buf (splice (sl_buf sl) 0 data) sl else sl) in *.
  assert (F : sl_used sl1 = true /\ sl_chain sl1 = Some head /\ sl_type sl1 = sl_type sl /\
              sl_status sl1 = sl_status sl /\ sl_data sl1 = sl_data sl /\ sl_len sl1 = sl_len sl).
  { unfold sl1. destruct (is_in (sl_type sl) && ok); cbn [set_buf sl_used sl_chain sl_type sl_status sl_data sl_len]; auto 10. }
  destruct F as (F1 & F2 & F3 & F4 & F5 & F6).
  assert (Fb : length (sl_buf sl1) = N.to_nat (sl_len sl)).
  { unfold sl1. destruct (is_in (sl_type sl) && ok) eqn:E; [|exact Hb].
    cbn [set_buf sl_buf]. apply andb_true_iff in E as [E1 E2]. apply is_in_true in E1.
    rewrite splice0_length; [exact Hb|]. specialize (Hc E2 E1). lia. }
  rewrite F2, F3, F4, F5 in H.
  cbn [set_out set_slots v_mem] in H.
  set (W := if is_in (sl_type sl) && ok then write_to_guest valid (v_mem s) (sl_buf sl1) 0 (sl_data sl)
            else Ok (v_mem s, true)) in *.
  destruct W as [[m1 wok]| |] eqn:EW; cbn [bindr] in H; try discriminate.
  injection H as H.
  set (s1 := set_mem m1 (set_out (remove_out id (v_out s)) (set_slots (set_nth id sl1 (v_slots s)) s))) in *.
  set (st := if ok && wok then S_OK else S_IOERR) in *.
  destruct (complete_io_effect valid q head (sl_status sl) st s1 Hv) as (C1 & C2 & C3 & C4 & C5 & C6 & C7).
  set (s2 := complete_io valid q head (sl_status sl) st s1) in *.
  assert (E2 : nth_error (v_slots s2) id = Some sl1).
  { rewrite C2. unfold s1. cbn [set_mem set_out set_slots v_slots]. apply nth_error_set_nth_eq. exact Hid. }
  assert (L2 : v_slots s' = set_nth id (set_used_flag false sl1) (v_slots s2)).
  { rewrite <- H. unfold put_request_slot. rewrite (nth_error_nth _ _ _ E2). reflexivity. }
  assert (V : v_slots s2 = set_nth id sl1 (v_slots s)) by (rewrite C2; reflexivity).
  split.
  - constructor.
    + rewrite <- H. cbn [put_request_slot set_slots v_ops]. rewrite C3. reflexivity.
    + rewrite <- H. cbn [put_request_slot set_slots v_out]. rewrite C4. reflexivity.
    + exists head. split; [exact Hh|]. split.
      * rewrite <- H. cbn [put_request_slot set_slots v_used]. rewrite C5. reflexivity.
      * rewrite !in_flight_contrib, L2.
        pose proof (contrib_set_nth _ id (set_used_flag false sl1) _ E2) as P2.
        unfold contrib at 1 3 in P2. cbn [set_used_flag sl_used sl_chain] in P2.
        rewrite F1, F2 in P2. cbn [app] in P2.
        pose proof (contrib_set_nth _ id sl1 _ Hs) as P1.
        replace (contrib sl1) with (contrib sl) in P1
          by (unfold contrib; rewrite F1, F2, Hu, Hh; reflexivity).
        apply Permutation_app_inv_l in P1. rewrite <- P1, <- V. symmetry. exact P2.
    + intros i Hne. rewrite L2, nth_error_set_nth_neq by auto. rewrite V.
      apply nth_error_set_nth_neq. auto.
    + rewrite <- H. cbn [put_request_slot set_slots v_pend]. exact C6.
    + unfold vinv.
      replace (v_out s') with (remove_out id (v_out s)).
      2:{ rewrite <- H. cbn [put_request_slot set_slots v_out]. rewrite C4. reflexivity. }
      rewrite L2. eapply slots_ok_free with (sl := set_used_flag false sl1); [exact Hi| | | |].
      * apply nth_error_set_nth_eq. rewrite V, set_nth_length. exact Hid.
      * reflexivity.
      * cbn [set_used_flag sl_buf sl_len]. congruence.
      * intros j Hj. rewrite nth_error_set_nth_neq by auto. rewrite V.
        apply nth_error_set_nth_neq. auto.
  - exists m1, wok. split.
    + rewrite <- EW. unfold W, sl1. destruct (is_in (sl_type sl) && ok); reflexivity.
    + rewrite <- H. cbn [put_request_slot set_slots v_mem]. rewrite C1. reflexivity.
Qed.

(** ** Runs *)
Lemma vinit_inv : forall valid m n b, vinv valid (vinit m n b).
Proof.
  intros. unfold vinv, vinit. cbn [v_slots v_out].
  assert (R : forall i sl, nth_error (repeat (new_slot b) n) i = Some sl -> sl = new_slot b).
  { intros i sl H. apply nth_error_In, repeat_spec in H. exact H. }
  constructor.
  - intros i sl H. apply R in H as ->. cbn [new_slot sl_buf sl_len]. apply repeat_length.
  - constructor.
  - intros i. split; [intros []|]. intros (sl & H & Hu). apply R in H as ->. discriminate.
  - intros i sl H Hu. apply R in H as ->. discriminate.
Qed.

Lemma out_slot : forall valid s id, vinv valid s -> In id (v_out s) ->
  exists sl, nth_error (v_slots s) id = Some sl /\ sl_used sl = true /\ good_slot valid sl.
Proof.
  intros * Hi Hin. apply (so_out _ _ _ Hi) in Hin as (sl & Hs & Hu).
  exists sl. split; [auto|]. split; [auto|]. eapply so_good; eauto.
Qed.

Lemma signal_rest : forall ei n s, let s' := signal ei n s in
  v_mem s' = v_mem s /\ v_slots s' = v_slots s /\ v_ops s' = v_ops s /\ v_out s' = v_out s /\
  v_used s' = v_used s.
Proof.
  intros. unfold s', signal.
  destruct (if v_pend s then if ei then n else true else false); cbn; auto 10.
Qed.

Lemma step_inv : forall valid q did s e s', vinv valid s -> channel_contract s e ->
  step valid q did s e = Ok s' -> vinv valid s'.
Proof.
  intros * Hi Hc H. destruct e; cbn [step] in H.
  - destruct (process_chain_effect _ _ _ _ _ _ Hi H) as [F|(rq & o & _ & F)]; apply F.
  - cbn [channel_contract] in Hc. destruct Hc as [Hin Hc].
    destruct (out_slot _ _ _ Hi Hin) as (sl & Hs & _ & _).
    destruct (complete_one_effect _ _ _ _ _ _ _ _ Hi Hin Hs (fun o t => Hc o _ Hs t) H) as [F _]. apply F.
  - injection H as <-. pose proof (signal_rest event_idx needs s) as R. cbv zeta in R.
    unfold vinv. destruct R as (_ & -> & _ & -> & _). exact Hi.
  - injection H as <-. exact Hi.
Qed.

(** A request keeps its slot, buffer included, until it is completed. *)
Lemma step_keep : forall valid q did s e s' id, vinv valid s -> channel_contract s e ->
  step valid q did s e = Ok s' -> In id (v_out s) ->
  (forall ok data, e <> EDone id ok data) ->
  In id (v_out s') /\ nth_error (v_slots s') id = nth_error (v_slots s) id.
Proof.
  intros * Hi Hc H Hin Hne. destruct e; cbn [step] in H.
  - destruct (process_chain_effect _ _ _ _ _ _ Hi H) as [F|(rq & o & _ & F)].
    + rewrite (fa_out _ _ _ _ _ F). split; [auto|]. apply F, Hin.
    + rewrite (ho_out _ _ _ _ _ _ F). split; [apply in_or_app; auto|]. apply F, Hin.
  - cbn [channel_contract] in Hc. destruct Hc as [Hin' Hc].
    destruct (out_slot _ _ _ Hi Hin') as (sl & Hs & _ & _).
    destruct (complete_one_effect _ _ _ _ _ _ _ _ Hi Hin' Hs (fun o t => Hc o _ Hs t) H) as [F _].
    assert (id <> id0) by (intros <-; eapply Hne; reflexivity).
    rewrite (co_out _ _ _ _ _ _ F). split; [apply in_remove_out; auto|]. apply F. auto.
  - injection H as <-. pose proof (signal_rest event_idx needs s) as R. cbv zeta in R.
    destruct R as (_ & -> & _ & -> & _). auto.
  - injection H as <-. auto.
Qed.

Lemma run_inv : forall valid q did es s s', vinv valid s ->
  along valid q did channel_contract s es -> run valid q did s es = Ok s' -> vinv valid s'.
Proof.
  induction es as [|e es IH]; intros s s' Hi Ha H; cbn [run along] in *.
  - injection H as <-. exact Hi.
  - destruct Ha as [Hc Ha]. destruct (step valid q did s e) as [s1| |] eqn:E; cbn [bindr] in H; try discriminate.
    specialize (Ha _ eq_refl).
    apply (IH s1 s'); auto. eapply step_inv; eauto.
Qed.

Lemma run_keep : forall valid q did es s s' id, vinv valid s ->
  along valid q did channel_contract s es -> run valid q did s es = Ok s' -> In id (v_out s) ->
  (forall ok data, ~ In (EDone id ok data) es) ->
  In id (v_out s') /\ nth_error (v_slots s') id = nth_error (v_slots s) id.
Proof.
  induction es as [|e es IH]; intros s s' id Hi Ha H Hin Hne; cbn [run along] in *.
  - injection H as <-. auto.
  - destruct Ha as [Hc Ha]. destruct (step valid q did s e) as [s1| |] eqn:E; cbn [bindr] in H; try discriminate.
    specialize (Ha _ eq_refl).
    destruct (step_keep _ _ _ _ _ _ id Hi Hc E Hin) as [K1 K2].
    { intros ok data ->. eapply Hne. left. reflexivity. }
    destruct (IH s1 s' id) as [L1 L2]; auto.
    + eapply step_inv; eauto.
    + intros ok data F. eapply Hne. right. exact F.
    + split; [auto|]. congruence.
Qed.

Definition inq (q : N) (l : list N) : list N := filter (fun h => h <? q) l.

Lemma inq_single : forall q h, inq q [h] = in_queue q h.
Proof. intros. unfold inq, in_queue. cbn [filter]. destruct (h <? q); reflexivity. Qed.

Lemma inq_app : forall q a b, inq q (a ++ b) = inq q a ++ inq q b.
Proof. intros. apply filter_app. Qed.

Lemma Permutation_inq : forall q a b, Permutation a b -> Permutation (inq q a) (inq q b).
Proof.
  intros q a b P. unfold inq. induction P; cbn [filter]; auto.
  - destruct (x <? q); auto.
  - destruct (x <? q), (y <? q); auto using perm_swap.
  - etransitivity; eauto.
Qed.

Lemma step_account : forall valid q did s e s' l, vinv valid s -> channel_contract s e ->
  step valid q did s e = Ok s' ->
  Permutation (inq q l) (v_used s ++ inq q (in_flight s)) ->
  Permutation (inq q (l ++ chain_of e)) (v_used s' ++ inq q (in_flight s')).
Proof.
  intros * Hi Hc H P. rewrite inq_app, P. destruct e; cbn [step chain_of] in *.
  - rewrite inq_single.
    destruct (process_chain_effect _ _ _ _ _ _ Hi H) as [F|(rq & o & _ & F)].
    + rewrite (fa_used _ _ _ _ _ F). rewrite (Permutation_inq q _ _ (fa_flight _ _ _ _ _ F)).
      rewrite <- !app_assoc. apply Permutation_app_head, Permutation_app_comm.
    + rewrite (ho_used _ _ _ _ _ _ F). rewrite (Permutation_inq q _ _ (ho_flight _ _ _ _ _ _ F)).
      change (c_head c :: in_flight s) with ([c_head c] ++ in_flight s).
      rewrite inq_app, inq_single. rewrite <- !app_assoc.
      apply Permutation_app_head, Permutation_app_comm.
  - cbn [channel_contract] in Hc. destruct Hc as [Hin' Hc].
    destruct (out_slot _ _ _ Hi Hin') as (sl & Hs & _ & _).
    destruct (complete_one_effect _ _ _ _ _ _ _ _ Hi Hin' Hs (fun o t => Hc o _ Hs t) H) as [F _].
    destruct (co_used _ _ _ _ _ _ F) as (head & _ & -> & PF).
    cbn [inq filter]. rewrite app_nil_r. rewrite (Permutation_inq q _ _ PF).
    change (head :: in_flight s') with ([head] ++ in_flight s').
    rewrite inq_app, inq_single, <- app_assoc. reflexivity.
  - injection H as <-. pose proof (signal_rest event_idx needs s) as R. cbv zeta in R.
    destruct R as (_ & R2 & _ & _ & ->). unfold in_flight. rewrite R2.
    cbn [inq filter]. rewrite app_nil_r. reflexivity.
  - injection H as <-. cbn [inq filter]. rewrite app_nil_r. reflexivity.
Qed.

Lemma run_account : forall valid q did es s s' l, vinv valid s ->
  along valid q did channel_contract s es -> run valid q did s es = Ok s' ->
  Permutation (inq q l) (v_used s ++ inq q (in_flight s)) ->
  Permutation (inq q (l ++ popped es)) (v_used s' ++ inq q (in_flight s')).
Proof.
  induction es as [|e es IH]; intros s s' l Hi Ha H P; cbn [run along] in *.
  - injection H as <-. unfold popped. cbn [flat_map]. rewrite app_nil_r. exact P.
  - destruct Ha as [Hc Ha]. destruct (step valid q did s e) as [s1| |] eqn:E; cbn [bindr] in H; try discriminate.
    specialize (Ha _ eq_refl).
    unfold popped. cbn [flat_map]. rewrite app_assoc. apply (IH s1 s'); auto.
    + eapply step_inv; eauto.
    + eapply step_account; eauto.
Qed.

(** ** Absence of panics *)
Lemma write_to_guest_fits : forall valid buf l m pos,
  pos + total_len l <= N.of_nat (length buf) -> exists m' ok, write_to_guest valid m buf pos l = Ok (m', ok).
Proof.
  induction l as [|[a n] l IH]; intros m pos H; cbn [write_to_guest total_len fold_right] in *; [eauto|].
  change (fold_right (fun '(_, n) t => n + t) 0 l) with (total_len l) in H.
  unfold nslice. destruct (N.leb_spec (pos + n) (N.of_nat (length buf))); [|lia]. cbn [bindr].
  destruct (gm_write valid m a _) as [m' ok]. destruct ok; [|eauto]. apply IH. lia.
Qed.

Lemma gather_fits : forall valid m l buf pos ok,
  pos + total_len l <= N.of_nat (length buf) ->
  exists buf' ok', gather valid m buf pos ok l = Ok (buf', ok').
Proof.
  induction l as [|[a n] l IH]; intros buf pos ok H; cbn [gather total_len fold_right] in *; [eauto|].
  change (fold_right (fun '(_, n) t => n + t) 0 l) with (total_len l) in H.
  unfold nslice. destruct (N.leb_spec (pos + n) (N.of_nat (length buf))); [|lia]. cbn [bindr].
  destruct (gm_read valid m a (N.to_nat n)) as [bs|] eqn:E.
  - apply IH. rewrite splice_length; [lia|]. rewrite (gm_read_length _ _ _ _ _ E). lia.
  - apply IH. lia.
Qed.

(** Slots whose request fits in 32 bits. *)
Definition small_slots (s : vstate) : Prop :=
  forall i sl, nth_error (v_slots s) i = Some sl -> sl_used sl = true -> total_len (sl_data sl) < 2 ^ 32.

Lemma process_chain_no_panic : forall valid q did c s, vinv valid s ->
  (forall rq, parse valid (v_mem s) c = Ok rq ->
      total_len (rq_data rq) < 2 ^ 32 /\ (rq_type rq = TGetId -> rq_data rq <> [])) ->
  exists s', process_chain valid q did c s = Ok s'.
Proof.
  intros * Hi Hl. unfold process_chain.
  destruct (parse valid (v_mem s) c) as [rq|e|] eqn:Ep; [|eauto|exfalso; eapply parse_no_panic; eauto].
  destruct (Hl rq eq_refl) as [Ht Hg]. destruct (rq_type rq) eqn:Et; eauto.
  - unfold process_read. destruct (negb _); [eauto|].
    destruct (get_request_slot _ _ _ _). eauto.
  - unfold process_write. destruct (negb _); [eauto|].
    destruct (get_request_slot (request_len 0 (rq_data rq)) rq (c_head c) (v_slots s)) as [id sls] eqn:Eg.
    destruct (get_slot_spec _ _ _ _ _ _ _ _ Hi Eg) as (G1 & G2 & G3 & sl & G4 & G5 & G6 & G7 & G8 & G9 & G10 & G11 & G12).
    rewrite (nth_error_nth _ _ _ G4).
    destruct (gather_fits valid (v_mem s) (rq_data rq) (sl_buf sl) 0 true) as (b & ok & ->).
    { rewrite (request_len_total _ 0) in G11 by lia. rewrite G12. lia. }
    cbn [bindr]. destruct ok; eauto.
  - unfold process_flush. destruct (get_request_slot _ _ _ _). eauto.
  - unfold process_get_device_id. specialize (Hg eq_refl).
    destruct (rq_data rq) as [|[a n] r]; [congruence|]. cbn [index nth_error bindr].
    destruct (n <? ID_BYTES); [eauto|]. destruct (gm_write _ _ _ _). eauto.
Qed.

Lemma complete_one_no_panic : forall valid q id ok data s, vinv valid s -> small_slots s ->
  channel_contract s (EDone id ok data) ->
  exists s', complete_one valid q id ok data s = Ok s'.
Proof.
  intros * Hi Hsm [Hin Hc]. destruct (out_slot _ _ _ Hi Hin) as (sl & Hs & Hu & (h & Hh) & Hv & Hl & Hr).
  unfold complete_one, index. rewrite Hs. cbn [bindr].
  destruct (is_in (sl_type sl) && ok) eqn:E.
  - cbn [set_buf sl_chain sl_type sl_buf sl_data sl_status]. rewrite Hh, E.
    apply andb_true_iff in E as [E1 E2]. apply is_in_true in E1.
    cbn [set_out set_slots v_mem].
    destruct (write_to_guest_fits valid (splice (sl_buf sl) 0 data) (sl_data sl) (v_mem s) 0) as (m & wok & ->).
    + rewrite splice0_length.
      * rewrite (so_buf _ _ _ Hi _ _ Hs). specialize (Hr E1). specialize (Hsm _ _ Hs Hu).
        rewrite (request_len_total _ 0) in Hr by lia. lia.
      * specialize (Hc E2 _ Hs E1). rewrite (so_buf _ _ _ Hi _ _ Hs). lia.
    + cbn [bindr]. eauto.
  - rewrite Hh, E. cbn [bindr]. eauto.
Qed.

Lemma step_small : forall valid q did s e s', vinv valid s -> small_slots s ->
  channel_contract s e -> within_limits valid s e ->
  step valid q did s e = Ok s' -> small_slots s'.
Proof.
  intros * Hi Hsm Hc Hw H i sl Hs Hu.
  assert (Hi' : vinv valid s') by (eapply step_inv; eauto).
  assert (Hin : In i (v_out s')) by (apply (so_out _ _ _ Hi'); eauto).
  destruct (in_dec Nat.eq_dec i (v_out s)) as [Hold|Hnew].
  - destruct e; cbn [step] in H.
    + destruct (process_chain_effect _ _ _ _ _ _ Hi H) as [F|(rq & o & _ & F)].
      * rewrite (fa_keep _ _ _ _ _ F _ Hold) in Hs. eapply Hsm; eauto.
      * rewrite (ho_keep _ _ _ _ _ _ F _ Hold) in Hs. eapply Hsm; eauto.
    + destruct Hc as [Hin' Hc].
      destruct (out_slot _ _ _ Hi Hin') as (sl' & Hs' & _ & _).
      destruct (complete_one_effect _ _ _ _ _ _ _ _ Hi Hin' Hs' (fun o t => Hc o _ Hs' t) H) as [F _].
      rewrite (co_out _ _ _ _ _ _ F) in Hin. apply in_remove_out in Hin as [_ Hne].
      rewrite (co_keep _ _ _ _ _ _ F _ Hne) in Hs. eapply Hsm; eauto.
    + injection H as <-. pose proof (signal_rest event_idx needs s) as R. cbv zeta in R.
      destruct R as (_ & R2 & _). rewrite R2 in Hs. eapply Hsm; eauto.
    + injection H as <-. eapply Hsm; eauto.
  - destruct e; cbn [step] in H.
    + destruct (process_chain_effect _ _ _ _ _ _ Hi H) as [F|(rq & o & Ep & F)].
      * rewrite (fa_out _ _ _ _ _ F) in Hin. contradiction.
      * rewrite (ho_out _ _ _ _ _ _ F) in Hin. apply in_app_iff in Hin as [?|[<-|[]]]; [contradiction|].
        destruct (ho_slot _ _ _ _ _ _ F) as (sl' & Hs' & _ & _ & Hd & _).
        rewrite Hs in Hs'. injection Hs' as <-. rewrite Hd. apply (Hw rq Ep).
    + destruct Hc as [Hin' Hc].
      destruct (out_slot _ _ _ Hi Hin') as (sl' & Hs' & _ & _).
      destruct (complete_one_effect _ _ _ _ _ _ _ _ Hi Hin' Hs' (fun o t => Hc o _ Hs' t) H) as [F _].
      rewrite (co_out _ _ _ _ _ _ F) in Hin. apply in_remove_out in Hin as [? _]. contradiction.
    + injection H as <-. pose proof (signal_rest event_idx needs s) as R. cbv zeta in R.
      destruct R as (_ & _ & _ & R4 & _). rewrite R4 in Hin. contradiction.
    + injection H as <-. contradiction.
Qed.

Lemma run_no_panic : forall valid q did es s, vinv valid s -> small_slots s ->
  along valid q did channel_contract s es -> along valid q did (within_limits valid) s es ->
  exists s', run valid q did s es = Ok s'.
Proof.
  induction es as [|e es IH]; intros s Hi Hsm Ha Hw; cbn [run along] in *; [eauto|].
  destruct Ha as [Hc Ha], Hw as [Hl Hw].
  assert (exists s1, step valid q did s e = Ok s1) as (s1 & E).
  { destruct e; cbn [step]; eauto.
    - apply process_chain_no_panic; auto.
    - apply complete_one_no_panic; auto. }
  rewrite E. cbn [bindr]. apply IH; auto.
  - eapply step_inv; eauto.
  - eapply step_small; eauto.
Qed.

(** ** Data *)
Lemma in_segs_cons : forall x s r, in_segs x (s :: r) <-> in_seg x s \/ in_segs x r.
Proof.
  intros. unfold in_segs. split.
  - intros (t & [<-|H] & Ht); [auto|]. right. eauto.
  - intros [H|(t & H & Ht)]; [exists s|exists t]; cbn [In]; auto.
Qed.

Lemma total_len_cons : forall a n r, total_len ((a, n) :: r) = n + total_len r.
Proof. reflexivity. Qed.

Lemma seg_contents_cons : forall m a n r,
  seg_contents m ((a, n) :: r) = map m (range a (N.to_nat n)) ++ seg_contents m r.
Proof. reflexivity. Qed.

Lemma seg_contents_length : forall m l, length (seg_contents m l) = N.to_nat (total_len l).
Proof.
  induction l as [|[a n] l IH]; [reflexivity|].
  rewrite seg_contents_cons, total_len_cons, app_length, map_length, range_length, IH. lia.
Qed.

Lemma seg_contents_same : forall P l m m', same_except P m m' ->
  (forall x, in_segs x l -> ~ P x) -> seg_contents m' l = seg_contents m l.
Proof.
  induction l as [|[a n] l IH]; intros m m' H Hd; [reflexivity|].
  rewrite !seg_contents_cons. f_equal.
  - apply map_ext_in. intros x Hx. apply H, Hd. apply in_segs_cons. left.
    apply in_range in Hx. unfold in_seg. cbn [fst snd]. lia.
  - apply IH; [exact H|]. intros x Hx. apply Hd, in_segs_cons. auto.
Qed.

Lemma write_to_guest_same : forall valid buf l m pos m' ok,
  write_to_guest valid m buf pos l = Ok (m', ok) -> same_except (fun x => in_segs x l) m m'.
Proof.
  induction l as [|[a n] l IH]; intros * H; cbn [write_to_guest] in H.
  - injection H as <- <-. intros x _. reflexivity.
  - destruct (nslice buf pos n) as [ch| |] eqn:E; cbn [bindr] in H; try discriminate.
    apply nslice_ok in E as (_ & El & _).
    destruct (gm_write valid m a ch) as [m1 ok1] eqn:Ew.
    pose proof (gm_write_same _ _ _ _ _ _ Ew) as S1. cbn beta in S1. rewrite El in S1.
    assert (S1' : forall x, ~ in_segs x ((a, n) :: l) -> m1 x = m x).
    { intros x Hx. apply S1. intros F. apply Hx, in_segs_cons. left. unfold in_seg. cbn [fst snd]. lia. }
    destruct ok1.
    + apply IH in H. intros x Hx. rewrite H; [apply S1', Hx|]. intros F. apply Hx, in_segs_cons. auto.
    + injection H as <- <-. exact S1'.
Qed.

Lemma write_to_guest_ok : forall valid buf l m pos m',
  write_to_guest valid m buf pos l = Ok (m', true) -> segs_disjoint l ->
  seg_contents m' l = firstn (N.to_nat (total_len l)) (skipn (N.to_nat pos) buf).
Proof.
  induction l as [|[a n] l IH]; intros * H Hd; cbn [write_to_guest] in H; [reflexivity|].
  destruct (nslice buf pos n) as [ch| |] eqn:E; cbn [bindr] in H; try discriminate.
  apply nslice_ok in E as (E1 & El & Ech).
  destruct (gm_write valid m a ch) as [m1 [|]] eqn:Ew; [|discriminate].
  cbn [segs_disjoint] in Hd. destruct Hd as [Hd1 Hd2].
  rewrite seg_contents_cons, total_len_cons.
  rewrite (IH _ _ _ H Hd2).
  assert (S1 : map m' (range a (N.to_nat n)) = ch).
  { transitivity (map m1 (range a (length ch))); [|exact (gm_write_ok _ _ _ _ _ Ew)].
    rewrite El. apply map_ext_in. intros x Hx.
    apply (write_to_guest_same _ _ _ _ _ _ _ H). apply Hd1. apply in_range in Hx.
    unfold in_seg. cbn [fst snd]. lia. }
  rewrite S1, Ech.
  replace (N.to_nat (pos + n)) with (N.to_nat n + N.to_nat pos)%nat by lia.
  rewrite <- ListFacts.skipn_skipn.
  replace (N.to_nat (n + total_len l)) with (N.to_nat n + N.to_nat (total_len l))%nat by lia.
  generalize (skipn (N.to_nat pos) buf). generalize (N.to_nat (total_len l)). generalize (N.to_nat n).
  clear. intros a b l. revert l. induction a; intros l; [reflexivity|].
  destruct l as [|x l]; cbn [firstn skipn Nat.add app].
  - rewrite firstn_nil. reflexivity.
  - f_equal. apply IHa.
Qed.

Lemma write_to_guest_status : forall valid buf l m pos m' ok,
  write_to_guest valid m buf pos l = Ok (m', ok) -> (ok = true <-> segs_valid valid l).
Proof.
  induction l as [|[a n] l IH]; intros * H; cbn [write_to_guest] in H.
  - injection H as <- <-. split; auto. intros _ x (s & [] & _).
  - destruct (nslice buf pos n) as [ch| |] eqn:E; cbn [bindr] in H; try discriminate.
    apply nslice_ok in E as (E1 & El & Ech).
    destruct (gm_write valid m a ch) as [m1 ok1] eqn:Ew.
    pose proof (gm_write_valid valid ch m a) as V. rewrite Ew in V. cbn [snd] in V. rewrite El in V.
    assert (V' : ok1 = true <-> forall x, in_seg x (a, n) -> valid x = true).
    { rewrite V, forallb_forall. unfold in_seg. cbn [fst snd]. split; intros F x Hx; apply F.
      - apply in_range. lia.
      - apply in_range in Hx. lia. }
    destruct ok1.
    + apply IH in H. rewrite H. unfold segs_valid. split.
      * intros F x Hx. apply in_segs_cons in Hx as [Hx|Hx]; [apply (proj1 V' eq_refl), Hx|apply F, Hx].
      * intros F x Hx. apply F, in_segs_cons. auto.
    + injection H as <- <-. split; [discriminate|]. intros F. apply V'. intros x Hx. apply F, in_segs_cons. auto.
Qed.

Lemma gather_flag : forall valid m l buf pos ok buf' ok',
  gather valid m buf pos ok l = Ok (buf', ok') -> (ok' = true <-> ok = true /\ segs_valid valid l).
Proof.
  induction l as [|[a n] l IH]; intros * H; cbn [gather] in H.
  - injection H as <- <-. split; [|tauto]. intros ->. split; auto. intros x (s & [] & _).
  - destruct (nslice buf pos n) as [ch| |] eqn:E; cbn [bindr] in H; try discriminate.
    destruct (gm_read valid m a (N.to_nat n)) as [bs|] eqn:Eg.
    + apply IH in H. rewrite H. apply gm_read_some in Eg as [Hv _]. unfold segs_valid. split; intros [F1 F2]; split; auto.
      * intros x Hx. apply in_segs_cons in Hx as [Hx|Hx]; [|auto]. apply Hv. unfold in_seg in Hx. cbn [fst snd] in Hx. lia.
      * intros x Hx. apply F2, in_segs_cons. auto.
    + apply IH in H. rewrite H. split; [intros [? _]; discriminate|]. intros [_ F]. exfalso.
      assert (gm_read valid m a (N.to_nat n) = Some (map m (range a (N.to_nat n)))); [|congruence].
      apply gm_read_some. split; [|reflexivity]. intros x Hx. apply F, in_segs_cons. left.
      unfold in_seg. cbn [fst snd]. lia.
Qed.

Lemma skipn_splice_at : forall (buf bs : list byte) p, (p <= length buf)%nat ->
  firstn (p + length bs) (splice buf p bs) = firstn p buf ++ bs.
Proof.
  intros. unfold splice. rewrite app_assoc.
  replace (p + length bs)%nat with (length (firstn p buf ++ bs)) by (rewrite app_length, firstn_length; lia).
  rewrite firstn_app, Nat.sub_diag, firstn_all. cbn [firstn]. apply app_nil_r.
Qed.

Lemma gather_contents : forall valid m l buf pos buf',
  gather valid m buf pos true l = Ok (buf', true) ->
  firstn (N.to_nat (pos + total_len l)) buf' = firstn (N.to_nat pos) buf ++ seg_contents m l.
Proof.
  induction l as [|[a n] l IH]; intros * H; cbn [gather] in H.
  - injection H as <-. cbn [total_len fold_right seg_contents flat_map]. rewrite app_nil_r, N.add_0_r. reflexivity.
  - destruct (nslice buf pos n) as [ch| |] eqn:E; cbn [bindr] in H; try discriminate.
    apply nslice_ok in E as (E1 & _ & _).
    destruct (gm_read valid m a (N.to_nat n)) as [bs|] eqn:Eg.
    2:{ apply gather_flag in H. destruct (proj1 H eq_refl). discriminate. }
    pose proof (gm_read_length _ _ _ _ _ Eg) as Hbl. apply gm_read_some in Eg as [_ Ebs].
    apply IH in H. rewrite total_len_cons, N.add_assoc, H, seg_contents_cons, app_assoc. f_equal.
    replace (N.to_nat (pos + n)) with (N.to_nat pos + length bs)%nat by lia.
    rewrite skipn_splice_at by lia. rewrite Ebs. reflexivity.
Qed.

(** ** One request from the available ring to the used ring *)
Lemma issued_by : forall valid q did c s s' o, vinv valid s ->
  process_chain valid q did c s = Ok s' -> v_ops s' = v_ops s ++ [o] ->
  exists rq, parse valid (v_mem s) c = Ok rq /\ handed_over valid (c_head c) rq s s' o /\
  (rq_type rq = TIn \/ rq_type rq = TOut \/ rq_type rq = TFlush) /\
  match o with
  | VRead sec cnt _ => rq_type rq = TIn /\ sec = rq_sector rq /\
      request_len 0 (rq_data rq) = SECTOR * cnt
  | VWrite sec cnt _ data => rq_type rq = TOut /\ sec = rq_sector rq /\
      request_len 0 (rq_data rq) = SECTOR * cnt /\ segs_valid valid (rq_data rq) /\
      (total_len (rq_data rq) < 2 ^ 32 -> data = seg_contents (v_mem s) (rq_data rq))
  | VFlush _ => rq_type rq = TFlush
  end.
Proof.
  intros * Hi H Ho. unfold process_chain in H.
  assert (NE : forall s1, finished_at_once valid q (c_head c) s s1 -> s1 = s' -> False).
  { intros s1 F ->. rewrite (fa_ops _ _ _ _ _ F) in Ho.
    apply (f_equal (@length _)) in Ho. rewrite app_length in Ho. cbn [length] in Ho. lia. }
  destruct (parse valid (v_mem s) c) as [rq|e|] eqn:Ep; [|exfalso|discriminate].
  2:{ assert (process_chain valid q did c s = Ok s') as H' by (unfold process_chain; rewrite Ep; exact H).
      destruct (process_chain_effect _ _ _ _ _ _ Hi H') as [F|(rq & o' & E & _)]; [eauto|congruence]. }
  exists rq. split; [reflexivity|].
  pose proof (parse_status_valid _ _ _ _ Ep) as Hv.
  assert (SAME : forall o', handed_over valid (c_head c) rq s s' o' -> o' = o).
  { intros o' F. rewrite (ho_ops _ _ _ _ _ _ F) in Ho. apply app_inv_head in Ho. congruence. }
  destruct (rq_type rq) eqn:Et.
  - destruct (process_read_effect _ _ _ _ _ _ Hi Hv Et H) as [[_ E]|(Hm & id & Hh)].
    + exfalso. eapply NE; [apply complete_io_finished; eauto|eauto].
    + rewrite <- (SAME _ Hh). split; [exact Hh|]. split; [auto|]. split; [auto|]. split; [auto|].
      pose proof (N.div_mod (request_len 0 (rq_data rq)) SECTOR). unfold SECTOR in *. lia.
  - destruct (process_write_effect _ _ _ _ _ _ Hi Hv Et H) as [[F _]|(Hm & id & b0 & b & Hb0 & Hg & Hh)].
    + exfalso. eapply NE; eauto.
    + rewrite <- (SAME _ Hh). split; [exact Hh|]. split; [auto|].
      split; [auto|]. split; [auto|]. split; [|split].
      * pose proof (N.div_mod (request_len 0 (rq_data rq)) SECTOR). unfold SECTOR in *. lia.
      * apply (proj1 (gather_flag _ _ _ _ _ _ _ _ Hg) eq_refl).
      * intros Hs. rewrite (request_len_total _ 0) by lia.
        rewrite (gather_contents _ _ _ _ _ _ Hg). reflexivity.
  - destruct (process_flush_effect _ _ _ _ _ Hi Hv Et H) as (id & Hh).
    rewrite <- (SAME _ Hh). auto 10.
  - exfalso. eapply NE; [eapply process_get_id_effect; eauto|reflexivity].
  - exfalso. injection H as <-. eapply NE; [apply complete_io_finished; eauto|reflexivity].
  - exfalso. injection H as <-. eapply NE; [apply complete_io_finished; eauto|reflexivity].
  - exfalso. injection H as <-. eapply NE; [apply complete_io_finished; eauto|reflexivity].
Qed.

Lemma firstn_splice0 : forall (buf data : list byte) n, n = length data ->
  firstn n (splice buf 0 data) = data.
Proof.
  intros * ->. unfold splice. cbn [firstn app]. rewrite firstn_app, Nat.sub_diag, firstn_all.
  cbn [firstn]. apply app_nil_r.
Qed.

Lemma request_end : forall valid q did c s0 s1 o rq es s2 ok data s3,
  vinv valid s0 -> process_chain valid q did c s0 = Ok s1 ->
  handed_over valid (c_head c) rq s0 s1 o ->
  along valid q did channel_contract s1 es -> run valid q did s1 es = Ok s2 ->
  (forall ok' d', ~ In (EDone (vop_id o) ok' d') es) ->
  channel_contract s2 (EDone (vop_id o) ok data) ->
  step valid q did s2 (EDone (vop_id o) ok data) = Ok s3 ->
  v_used s3 = v_used s2 ++ in_queue q (c_head c) /\
  exists m1 wok,
    (if is_in (rq_type rq) && ok
     then exists buf, firstn (length data) buf = data /\
          write_to_guest valid (v_mem s2) buf 0 (rq_data rq) = Ok (m1, wok)
     else m1 = v_mem s2 /\ wok = true) /\
    v_mem s3 = gm_upd m1 (rq_status rq) (if ok && wok then S_OK else S_IOERR) /\
    (ok = true -> rq_type rq = TIn -> N.of_nat (length data) = request_len 0 (rq_data rq) \/ exists i, o = VFlush i).
Proof.
  intros * Hi Hp Hh Ha Hr Hne Hc Hs.
  pose proof (ho_inv _ _ _ _ _ _ Hh) as Hi1.
  assert (Hin1 : In (vop_id o) (v_out s1)).
  { rewrite (ho_out _ _ _ _ _ _ Hh). apply in_or_app. right. left. reflexivity. }
  destruct (run_keep _ _ _ _ _ _ (vop_id o) Hi1 Ha Hr Hin1 Hne) as [Hin2 Hk].
  destruct (ho_slot _ _ _ _ _ _ Hh) as (sl & Hsl & T1 & T2 & T3 & T4 & T5).
  rewrite <- Hk in Hsl. pose proof (run_inv _ _ _ _ _ _ Hi1 Ha Hr) as Hi2.
  destruct Hc as [_ Hc]. cbn [step] in Hs.
  destruct (complete_one_effect _ _ _ _ _ _ _ _ Hi2 Hin2 Hsl (fun a b => Hc a _ Hsl b) Hs)
    as [F (m1 & wok & Hw & Hm)].
  destruct (co_used _ _ _ _ _ _ F) as (h & Hh1 & Hu & _). rewrite T2 in Hh1. injection Hh1 as <-.
  split; [exact Hu|]. exists m1, wok. rewrite T1, T3 in Hw. rewrite T4 in Hm.
  split; [|split; [exact Hm|]].
  - destruct (is_in (rq_type rq) && ok).
    + exists (splice (sl_buf sl) 0 data). split; [apply firstn_splice0; reflexivity|exact Hw].
    + injection Hw as <- <-. auto.
  - intros E1 E2. specialize (Hc E1 _ Hsl). rewrite T1 in Hc. specialize (Hc E2).
    rewrite T5 in Hc. destruct o; eauto.
Qed.
