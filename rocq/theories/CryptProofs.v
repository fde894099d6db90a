From Coq Require Import List Arith NArith Bool Lia.
Import ListNotations.
From Verif Require Import Base BaseFacts DiskSpec CryptModel CryptSpec.

Section Buffers.
Context {V : Type}.

(** ** The encryption loop on a buffer of sectors. *)
Lemma crypt_loop_ok : forall f start n i (buf : list (option V)), i + n <= length buf ->
  exists buf', crypt_loop f start n i buf = Ok buf' /\ length buf' = length buf /\
    forall j, nth_error buf' j =
      if (i <=? j) && (j <? i + n) then option_map (option_map (f (start + j))) (nth_error buf j)
      else nth_error buf j.
Proof.
  intros f start. induction n as [|n IH]; intros i buf H; cbn [crypt_loop].
  - exists buf. split; [reflexivity|split; [reflexivity|]]. intros j.
    destruct ((i <=? j) && (j <? i + 0)) eqn:E; [|reflexivity].
    apply andb_true_iff in E. destruct E as [E1 E2]. apply Nat.leb_le in E1. apply Nat.ltb_lt in E2. lia.
  - unfold index. destruct (nth_error buf i) as [d|] eqn:Hi.
    2:{ apply nth_error_None in Hi. lia. }
    cbn [bindr].
    destruct (IH (S i) (set_nth i (option_map (f (start + i)) d) buf)) as (b' & E & L & N0).
    { rewrite set_nth_length. lia. }
    exists b'. split; [exact E|]. rewrite set_nth_length in L. split; [exact L|].
    intros j. rewrite N0. destruct (Nat.eq_dec j i) as [->|Hne].
    + replace (S i <=? i) with false by (symmetry; apply Nat.leb_gt; lia).
      replace (i <=? i) with true by (symmetry; apply Nat.leb_le; lia).
      replace (i <? i + S n) with true by (symmetry; apply Nat.ltb_lt; lia).
      cbn [andb]. rewrite nth_error_set_nth_eq by lia. now rewrite Hi.
    + rewrite nth_error_set_nth_neq by congruence.
      replace (S i <=? j) with (i <=? j).
      2:{ destruct (i <=? j) eqn:E1; symmetry; [apply Nat.leb_le|apply Nat.leb_gt];
          [apply Nat.leb_le in E1|apply Nat.leb_gt in E1]; lia. }
      replace (S i + n) with (i + S n) by lia. reflexivity.
Qed.

Lemma nth_error_ext : forall {A} (l l' : list A), (forall i, nth_error l i = nth_error l' i) -> l = l'.
Proof.
  induction l as [|a l IH]; intros [|b l'] H; auto.
  - specialize (H 0). discriminate.
  - specialize (H 0). discriminate.
  - f_equal. { specialize (H 0). cbn in H. congruence. } apply IH. intros i. exact (H (S i)).
Qed.

Lemma nth_error_firstn : forall {A} n i (l : list A), nth_error (firstn n l) i =
  if i <? n then nth_error l i else None.
Proof.
  induction n as [|n IH]; intros i l; cbn [firstn].
  - replace (i <? 0) with false by (symmetry; apply Nat.ltb_ge; lia). now destruct i.
  - destruct l as [|a l]; cbn [nth_error].
    + match goal with |- _ = if ?c then _ else _ => destruct c end; now destruct i.
    + destruct i; cbn [nth_error]; [reflexivity|]. rewrite IH. reflexivity.
Qed.

Lemma nth_error_map_seq : forall {A} (f : nat -> A) n i,
  nth_error (map f (seq 0 n)) i = if i <? n then Some (f i) else None.
Proof.
  intros A f n i. destruct (i <? n) eqn:E.
  - apply Nat.ltb_lt in E. erewrite map_nth_error; [reflexivity|].
    rewrite (nth_error_nth' _ 0) by (rewrite seq_length; lia). rewrite seq_nth by lia. reflexivity.
  - apply Nat.ltb_ge in E. apply nth_error_None. rewrite map_length, seq_length. lia.
Qed.

Lemma defined_spec : forall (l : list (option V)) d, defined l = Some d <-> l = map Some d.
Proof.
  induction l as [|[v|] l IH]; intros d; cbn [defined].
  - split; intros H; [now injection H as <-|]. now destruct d.
  - destruct (defined l) as [d'|] eqn:E.
    + split; intros H.
      * injection H as <-. cbn. f_equal. now apply IH.
      * destruct d as [|a d]; [discriminate|]. cbn in H. injection H as -> H. apply IH in H. congruence.
    + split; intros H; [discriminate|]. destruct d as [|a d]; [discriminate|]. cbn in H.
      injection H as -> H. apply IH in H. discriminate.
  - split; intros H; [discriminate|]. now destruct d.
Qed.

End Buffers.

Section Device.
Context {V : Type}.
Variable enc dec : nat -> V -> V.
Variable size : nat.
Hypothesis dec_enc : forall x v, dec x (enc x v) = v.

(** ** The plain disk that the encrypted device simulates. *)
Definition dec_hist (x : nat) (l : list (nat * V)) : list (nat * V) :=
  map (fun e => (fst e, dec x (snd e))) l.

Definition kind_sim (kb kp : dkind V) : Prop :=
  match kb, kp with
  | DRead off len got, DRead off' len' got' =>
    off' = off /\ len' = len /\ forall i, got' i = option_map (dec (off + i)) (got i)
  | DWrite off data app, DWrite off' data' app' =>
    off' = off /\ length data' = length data /\ (forall i, app' i = app i) /\
    forall i, nth_error data' i = option_map (dec (off + i)) (nth_error data i)
  | DFlush snap, DFlush snap' => forall m, snap' m = snap m
  | _, _ => False
  end.

Definition op_sim (ob op : option (dop V)) : Prop :=
  match ob, op with
  | None, None => True
  | Some a, Some b => d_ch b = d_ch a /\ d_id b = d_id a /\ kind_sim (d_kind a) (d_kind b)
  | _, _ => False
  end.

Record dsim (b p : disk V) : Prop := {
  ds_ops : forall n, op_sim (d_ops b n) (d_ops p n);
  ds_used : forall n, d_used p n = d_used b n;
  ds_done : forall n, d_done p n = d_done b n;
  ds_hist : forall x, d_hist p x = dec_hist x (d_hist b x)
}.

(** The invariant tying the channel state to the requests in flight. *)
Record cinv (s : cdev V) : Prop := {
  ci_read : forall n o off len got, d_ops (c_base s) n = Some o -> d_kind o = DRead off len got ->
    c_reads s (d_ch o) (d_id o) = Some (mk_creq off len (c_buf s n)) /\
    len <= length (c_mem s (c_buf s n)) /\
    forall i, i < len -> nth_error (c_mem s (c_buf s n)) i = Some (got i);
  ci_entry : forall q id r, c_reads s q id = Some r ->
    exists n o got, d_ops (c_base s) n = Some o /\ d_ch o = q /\ d_id o = id /\
      d_kind o = DRead (r_off r) (r_cnt r) got;
  ci_ids : forall n n' o o', d_ops (c_base s) n = Some o -> d_ops (c_base s) n' = Some o' ->
    d_ch o = d_ch o' -> d_id o = d_id o' -> n = n';
  ci_bufs : forall n n' o o', d_ops (c_base s) n = Some o -> d_ops (c_base s) n' = Some o' ->
    is_flush (d_kind o) = false -> is_flush (d_kind o') = false ->
    c_buf s n = c_buf s n' -> n = n';
  ci_used : forall n o, d_ops (c_base s) n = Some o -> d_used (c_base s) n = true;
  ci_panic : c_panic s = false
}.

Lemma trim_dec : forall x du du' l, (forall n, du' n = du n) -> trim du' (dec_hist x l) = dec_hist x (trim du l).
Proof.
  intros x du du' l E. induction l as [|e l IH]; cbn [dec_hist map trim]; [reflexivity|]. cbn [fst].
  rewrite E. destruct (du (fst e)); cbn; [reflexivity|]. f_equal. exact IH.
Qed.

Lemma cur_dec : forall x l, cur (dec_hist x l) = option_map (dec x) (cur l).
Proof. intros x [|e l]; reflexivity. Qed.

Lemma crashed_dec : forall x l i, crashed (dec_hist x l) i = dec_hist x (crashed l i).
Proof.
  intros x l i. unfold crashed, dec_hist. rewrite nth_error_map.
  destruct (nth_error l i) as [e|]; cbn; [reflexivity|]. now destruct l.
Qed.

Lemma in_range_all_ext : forall off len p p', (forall i, i < len -> p i = p' i) ->
  in_range_all size off len p = in_range_all size off len p'.
Proof.
  intros off len p p' H. unfold in_range_all.
  assert (forall l, (forall i, In i l -> i < len) ->
    forallb (fun i => negb (off + i <? size) || p i) l = forallb (fun i => negb (off + i <? size) || p' i) l).
  { induction l as [|a l IH]; intros Hl; cbn; [reflexivity|]. rewrite H by (apply Hl; now left).
    f_equal. apply IH. intros i Hi. apply Hl. now right. }
  apply H0. intros i Hi. apply in_seq in Hi. lia.
Qed.

(** The plain disk takes the step matching a step of the base disk. *)
Lemma dsim_step : forall b p e b' t, dsim b p -> dstep size b e = Some (b', t) ->
  (forall n c id r, e <> DIssue n c id r) ->
  exists p', dstep size p e = Some (p', 
    map (fun it => match it with
       | TDone n c id true data =>
         match d_ops b n with
         | Some o => match d_kind o with
                     | DRead off len got => TDone n c id true (map (fun i => option_map (dec (off + i)) (got i)) (seq 0 len))
                     | _ => it end
         | None => it end
       | _ => it end) t) /\ dsim b' p'.
Proof.
  intros b p e b' t S H Hni. destruct S as [So Su Sd Sh].
  destruct e as [n c id r|n i|n i|n ok|sv]; cbn [dstep] in H |- *.
  - exfalso. eapply Hni. reflexivity.
  - specialize (So n) as Sn. destruct (d_ops b n) as [[c id k]|] eqn:E; [|discriminate].
    destruct (d_ops p n) as [[c' id' k']|] eqn:E'; [|destruct Sn]. cbn in Sn.
    destruct Sn as (-> & -> & Sk). destruct k as [|off data app|]; try discriminate.
    destruct k' as [|off' data' app'|]; try contradiction. destruct Sk as (-> & HL & Ha & Hd).
    rewrite Hd. destruct (nth_error data i) as [v|] eqn:Ev; [|discriminate]. cbn [option_map].
    rewrite Ha. destruct ((off + i <? size) && negb (app i)) eqn:G; [|discriminate].
    injection H as <- <-. eexists. split; [reflexivity|]. split; cbn.
    + intros m. destruct (Nat.eq_dec m n) as [->|Hm]; [rewrite !upd_eq|rewrite !upd_neq by auto; apply So].
      cbn. split; [reflexivity|split; [reflexivity|]]. split; [reflexivity|]. split; [exact HL|].
      split; [|exact Hd]. intros j. unfold upd. now rewrite Ha.
    + exact Su.
    + exact Sd.
    + intros x. destruct (Nat.eq_dec x (off + i)) as [->|Hx]; [rewrite !upd_eq|rewrite !upd_neq by auto; apply Sh].
      cbn. f_equal. apply Sh.
  - specialize (So n) as Sn. destruct (d_ops b n) as [[c id k]|] eqn:E; [|discriminate].
    destruct (d_ops p n) as [[c' id' k']|] eqn:E'; [|destruct Sn]. cbn in Sn.
    destruct Sn as (-> & -> & Sk). destruct k as [off len got| |]; try discriminate.
    destruct k' as [off' len' got'| |]; try contradiction. destruct Sk as (-> & -> & Hg).
    destruct ((off + i <? size) && (i <? len)) eqn:G; [|discriminate].
    injection H as <- <-. eexists. split; [reflexivity|]. unfold set_kind. split; cbn.
    + intros m. destruct (Nat.eq_dec m n) as [->|Hm]; [rewrite !upd_eq|rewrite !upd_neq by auto; apply So].
      cbn. split; [reflexivity|split; [reflexivity|]]. split; [reflexivity|]. split; [reflexivity|].
      intros j. unfold upd. destruct (j =? i) eqn:Ej; [|apply Hg].
      apply Nat.eqb_eq in Ej. subst j. rewrite Sh. apply cur_dec.
    + exact Su.
    + exact Sd.
    + exact Sh.
  - specialize (So n) as Sn. destruct (d_ops b n) as [[c id k]|] eqn:E; [|discriminate].
    destruct (d_ops p n) as [[c' id' k']|] eqn:E'; [|destruct Sn]. cbn in Sn.
    destruct Sn as (-> & -> & Sk).
    assert (Ho : forall m, op_sim (upd (d_ops b) n None m) (upd (d_ops p) n None m)).
    { intros m. destruct (Nat.eq_dec m n) as [->|Hm]; [rewrite !upd_eq; exact I|rewrite !upd_neq by auto; apply So]. }
    destruct ok.
    + destruct k as [off len got|off data app|snap]; destruct k' as [off' len' got'|off' data' app'|snap']; try contradiction.
      * destruct Sk as (-> & -> & Hg).
        rewrite (in_range_all_ext off len (fun i => is_some (got' i)) (fun i => is_some (got i))).
        2:{ intros i _. rewrite Hg. now destruct (got i). }
        destruct (in_range_all size off len (fun i => is_some (got i))) eqn:G; [|discriminate].
        injection H as <- <-. eexists. split.
        { cbn. rewrite E. cbn [d_kind]. unfold read_data. now rewrite (map_ext got' _ Hg). }
        split; cbn; auto.
      * destruct Sk as (-> & HL & Ha & Hd). rewrite HL.
        rewrite (in_range_all_ext off (length data) app' app) by (intros; apply Ha).
        destruct (in_range_all size off (length data) app) eqn:G; [|discriminate].
        injection H as <- <-. eexists. split; [cbn; rewrite E; reflexivity|]. split; cbn; auto.
        intros m. unfold upd. now rewrite Sd.
      * injection H as <- <-. eexists. split; [cbn; rewrite E; reflexivity|]. split; cbn; auto.
        intros x. rewrite Sh. now apply trim_dec.
    + injection H as <- <-. eexists. split; [reflexivity|]. split; cbn; auto.
  - injection H as <- <-. eexists. split; [reflexivity|]. split; cbn; auto.
    intros x. rewrite Sh. apply crashed_dec.
Qed.

Lemma dsim_issue : forall b p n c id rb rp b' t, dsim b p ->
  dstep size b (DIssue n c id rb) = Some (b', t) ->
  (match rb, rp with
   | RRead off len, RRead off' len' => off' = off /\ len' = len
   | RWrite off data, RWrite off' data' => off' = off /\ length data' = length data /\
       forall i, nth_error data' i = option_map (dec (off + i)) (nth_error data i)
   | RFlush, RFlush => True
   | _, _ => False end) ->
  exists p', dstep size p (DIssue n c id rp) = Some (p', [TIssue n c id rp]) /\ dsim b' p'.
Proof.
  intros b p n c id rb rp b' t [So Su Sd Sh] H R. cbn [dstep] in *. rewrite Su.
  destruct (d_used b n); [discriminate|]. injection H as <- <-.
  eexists. split; [reflexivity|]. unfold dissue. split; cbn; auto.
  - intros m. destruct (Nat.eq_dec m n) as [->|Hm]; [rewrite !upd_eq|rewrite !upd_neq by auto; apply So].
    cbn. split; [reflexivity|split; [reflexivity|]].
    destruct rb as [off len|off data|], rp as [off' len'|off' data'|]; try contradiction; cbn.
    + destruct R as [-> ->]. auto.
    + destruct R as (-> & HL & Hd). auto.
    + exact Sd.
  - intros m. unfold upd. now rewrite Su.
Qed.

(** ** Each step of the encrypted device is a step of the plain disk. *)
Lemma issue_used : forall b n c id (r : req V) b' t, dstep size b (DIssue n c id r) = Some (b', t) ->
  d_used b n = false /\ b' = dissue n c id r b.
Proof.
  intros b n c id r b' t H. cbn in H. destruct (d_used b n); [discriminate|].
  split; [reflexivity|congruence].
Qed.

Lemma kind_start : forall (b : disk V) r, is_flush (start_kind b r) = match r with RFlush => true | _ => false end.
Proof. intros b [ | | ]; reflexivity. Qed.

Definition sim (s : cdev V) (p : disk V) : Prop := cinv s /\ dsim (c_base s) p.

Lemma put_length : forall (d b : list (option V)), length d <= length b -> length (put d b) = length b.
Proof. intros d b H. unfold put. rewrite app_length, skipn_length. lia. Qed.

Lemma nth_error_put : forall (d b : list (option V)) i, length d <= length b ->
  nth_error (put d b) i = if i <? length d then nth_error d i else nth_error b i.
Proof.
  intros d b i H. unfold put. destruct (i <? length d) eqn:E.
  - apply Nat.ltb_lt in E. now rewrite nth_error_app1.
  - apply Nat.ltb_ge in E. rewrite nth_error_app2 by lia.
    rewrite <- (firstn_skipn (length d) b) at 2. rewrite nth_error_app2 by (rewrite firstn_length; lia).
    rewrite firstn_length. now rewrite Nat.min_l by lia.
Qed.

Lemma sim_fill : forall s p b data s' t, sim s p -> call_ok s (CFill b data) ->
  cstep enc dec size s (CFill b data) = Some (s', t) ->
  t = [] /\ sim s' p.
Proof.
  intros s p b data s' t [I S] C H. cbn in H. injection H as <- <-. split; [reflexivity|].
  destruct I as [I1 I2 I3 I4 I5 I6]. cbn in C. split; [|exact S].
  split; cbn; auto.
  intros n o off len got Ho Hk. destruct (I1 _ _ _ _ _ Ho Hk) as (A & B & D).
  assert (c_buf s n <> b) by (apply (C n o Ho); now rewrite Hk).
  rewrite upd_neq by auto. auto.
Qed.

Lemma sim_read : forall s p n q id off cnt b s' t, sim s p -> call_ok s (CRead n q id off cnt b) ->
  cstep enc dec size s (CRead n q id off cnt b) = Some (s', t) ->
  exists p', dstep size p (DIssue n q id (RRead off cnt)) = Some (p', t) /\ sim s' p'.
Proof.
  intros s p n q id off cnt b s' t [I S] C H. cbn [cstep] in H.
  destruct (dstep size (c_base s) (DIssue n q id (RRead off cnt))) as [[d t0]|] eqn:E; [|discriminate].
  injection H as <- <-.
  destruct (dsim_issue (c_base s) p n q id (RRead off cnt) (RRead off cnt) d t0 S E) as (p' & Hp & S').
  { auto. }
  exists p'. split; [exact Hp|]. split; [|exact S'].
  apply issue_used in E. destruct E as [Hu ->].
  destruct I as [I1 I2 I3 I4 I5 I6]. destruct C as (C1 & C2 & C3).
  assert (Hlen : length (repeat (@None V) cnt) <= length (c_mem s b)) by (rewrite repeat_length; exact C3).
  split; cbn.
  - intros m o off' len' got Ho Hk. destruct (Nat.eq_dec m n) as [->|Hm].
    + rewrite upd_eq in Ho. injection Ho as <-. cbn in Hk. injection Hk as <- <- <-. cbn.
      unfold upd2. rewrite !upd_eq. split; [reflexivity|]. split; [rewrite put_length; auto|].
      intros i Hi. rewrite nth_error_put by exact Hlen. rewrite repeat_length.
      apply Nat.ltb_lt in Hi as Hi'. rewrite Hi'. now apply nth_error_repeat.
    + rewrite upd_neq in Ho by auto. destruct (I1 _ _ _ _ _ Ho Hk) as (A & B & D).
      rewrite upd_neq by auto.
      assert (c_buf s m <> b) by (apply (C2 m o Ho); now rewrite Hk).
      rewrite upd_neq by auto. split; [|auto]. unfold upd2.
      destruct (Nat.eq_dec (d_ch o) q) as [Eq|Nq]; [|now rewrite upd_neq].
      rewrite Eq, upd_eq. rewrite upd_neq by (eapply C1; eauto). rewrite <- Eq. exact A.
  - intros q' id' r Hr. unfold upd2 in Hr. destruct (Nat.eq_dec q' q) as [->|Nq].
    + rewrite upd_eq in Hr. destruct (Nat.eq_dec id' id) as [->|Ni].
      * rewrite upd_eq in Hr. injection Hr as <-. exists n. eexists. eexists. rewrite upd_eq.
        split; [reflexivity|]. cbn. auto.
      * rewrite upd_neq in Hr by auto. destruct (I2 _ _ _ Hr) as (m & o & got & A & B & D & F).
        exists m, o, got. rewrite upd_neq; [auto|]. intros ->. apply I5 in A. congruence.
    + rewrite upd_neq in Hr by auto. destruct (I2 _ _ _ Hr) as (m & o & got & A & B & D & F).
      exists m, o, got. rewrite upd_neq; [auto|]. intros ->. apply I5 in A. congruence.
  - intros m m' o o' Ho Ho' Ec Ei.
    destruct (Nat.eq_dec m n) as [->|Hm]; destruct (Nat.eq_dec m' n) as [->|Hm']; auto;
      rewrite ?upd_eq in *; rewrite ?upd_neq in * by auto.
    + injection Ho as <-. cbn in *. exfalso. apply (C1 m' o' Ho'); auto.
    + injection Ho' as <-. cbn in *. exfalso. apply (C1 m o Ho); auto.
    + eauto.
  - intros m m' o o' Ho Ho' Fo Fo' Eb.
    destruct (Nat.eq_dec m n) as [->|Hm]; destruct (Nat.eq_dec m' n) as [->|Hm']; auto;
      rewrite ?upd_eq in *; rewrite ?upd_neq in * by auto.
    + exfalso. apply (C2 m' o' Ho' Fo'); auto.
    + exfalso. apply (C2 m o Ho Fo); auto.
    + eapply I4; [exact Ho|exact Ho'|auto|auto|auto].
  - intros m o Ho. destruct (Nat.eq_dec m n) as [->|Hm]; [now rewrite upd_eq|].
    rewrite upd_neq in Ho by auto. rewrite upd_neq by auto. eauto.
  - exact I6.
Qed.

(** Adding a request that is not a read. *)
Lemma cinv_issue : forall s n q id b r mem,
  cinv s -> d_used (c_base s) n = false -> id_free s q id ->
  (match r with RRead _ _ => False | RWrite _ _ => buf_free s b | RFlush => True end) ->
  (forall m, m <> b -> mem m = c_mem s m) ->
  (match r with RWrite _ _ => True | _ => forall m, mem m = c_mem s m end) ->
  cinv (mk_cdev (c_reads s) mem (dissue n q id r (c_base s))
     (match r with RWrite _ _ => upd (c_buf s) n b | _ => c_buf s end) (c_panic s)).
Proof.
  intros s n q id b r mem [I1 I2 I3 I4 I5 I6] Hu C1 C2 Hm1 Hm2.
  assert (Hold : forall m o, d_ops (c_base s) m = Some o -> m <> n) by (intros m o Ho ->; apply I5 in Ho; congruence).
  split; cbn.
  - intros m o off' len' got Ho Hk. destruct (Nat.eq_dec m n) as [->|Hm].
    + rewrite upd_eq in Ho. injection Ho as <-. cbn in Hk. destruct r; [destruct C2|discriminate|discriminate].
    + rewrite upd_neq in Ho by auto. destruct (I1 _ _ _ _ _ Ho Hk) as (A & B & D).
      destruct r as [| |]; [destruct C2| |].
      * rewrite upd_neq by auto. rewrite Hm1; [auto|]. apply (C2 m o Ho). now rewrite Hk.
      * rewrite Hm2. auto.
  - intros q' id' r' Hr. destruct (I2 _ _ _ Hr) as (m & o & got & A & B & D & F).
    exists m, o, got. rewrite upd_neq; eauto.
  - intros m m' o o' Ho Ho' Ec Ei.
    destruct (Nat.eq_dec m n) as [->|Hm]; destruct (Nat.eq_dec m' n) as [->|Hm']; auto;
      rewrite ?upd_eq in *; rewrite ?upd_neq in * by auto.
    + injection Ho as <-. cbn in *. exfalso. apply (C1 m' o' Ho'); auto.
    + injection Ho' as <-. cbn in *. exfalso. apply (C1 m o Ho); auto.
    + eauto.
  - intros m m' o o' Ho Ho' Fo Fo' Eb. destruct r as [| |]; [destruct C2| |].
    + destruct (Nat.eq_dec m n) as [->|Hm]; destruct (Nat.eq_dec m' n) as [->|Hm']; auto;
        rewrite ?upd_eq in *; rewrite ?upd_neq in * by auto.
      * exfalso. apply (C2 m' o' Ho' Fo'); auto.
      * exfalso. apply (C2 m o Ho Fo); auto.
      * eapply I4; [exact Ho|exact Ho'|auto|auto|auto].
    + destruct (Nat.eq_dec m n) as [->|Hm].
      { rewrite upd_eq in Ho. injection Ho as <-. discriminate. }
      destruct (Nat.eq_dec m' n) as [->|Hm'].
      { rewrite upd_eq in Ho'. injection Ho' as <-. discriminate. }
      rewrite ?upd_neq in * by auto. eapply I4; [exact Ho|exact Ho'|auto|auto|auto].
  - intros m o Ho. destruct (Nat.eq_dec m n) as [->|Hm]; [now rewrite upd_eq|].
    rewrite upd_neq in Ho by auto. rewrite upd_neq by auto. eauto.
  - exact I6.
Qed.

Lemma sim_write : forall s p n q id off cnt b s' t, sim s p -> call_ok s (CWrite n q id off cnt b) ->
  cstep enc dec size s (CWrite n q id off cnt b) = Some (s', t) ->
  exists plain p', firstn cnt (c_mem s b) = map Some plain /\
    dstep size p (DIssue n q id (RWrite off plain)) = Some (p', t) /\ sim s' p'.
Proof.
  intros s p n q id off cnt b s' t [I S] C H. cbn [cstep] in H. destruct C as (C1 & C2 & C3).
  destruct (defined (firstn cnt (c_mem s b))) as [plain|] eqn:Ep; [|discriminate].
  apply defined_spec in Ep.
  destruct (crypt_loop_ok enc off cnt 0 (c_mem s b)) as (buf & Eb & Lb & Nb). { lia. }
  rewrite Eb in H.
  destruct (defined (firstn cnt buf)) as [cipher|] eqn:Ec; [|discriminate]. apply defined_spec in Ec.
  destruct (dstep size (c_base s) (DIssue n q id (RWrite off cipher))) as [[d t0]|] eqn:E; [|discriminate].
  injection H as <- <-.
  assert (Hcp : forall i, nth_error plain i = option_map (dec (off + i)) (nth_error cipher i)).
  { intros i.
    assert (Hc : nth_error (map Some cipher) i = nth_error (firstn cnt buf) i) by now rewrite Ec.
    assert (Hp : nth_error (map Some plain) i = nth_error (firstn cnt (c_mem s b)) i) by now rewrite Ep.
    rewrite nth_error_firstn, nth_error_map in Hc, Hp. rewrite Nb in Hc. cbn [Nat.leb andb] in Hc.
    rewrite Nat.add_0_l in Hc. destruct (i <? cnt).
    - rewrite <- Hp in Hc. destruct (nth_error plain i) as [v|]; cbn in *.
      + destruct (nth_error cipher i); cbn in *; [|discriminate]. injection Hc as ->. cbn. now rewrite dec_enc.
      + destruct (nth_error cipher i); [discriminate|reflexivity].
    - destruct (nth_error plain i); [discriminate|]. destruct (nth_error cipher i); [discriminate|reflexivity]. }
  assert (HL : length plain = length cipher).
  { apply (f_equal (@length _)) in Ep, Ec. rewrite map_length, firstn_length in Ep, Ec. lia. }
  destruct (dsim_issue (c_base s) p n q id (RWrite off cipher) (RWrite off plain) d t0 S E) as (p' & Hp & S').
  { auto. }
  exists plain, p'. split; [exact Ep|]. split; [exact Hp|]. split; [|exact S'].
  apply issue_used in E. destruct E as [Hu ->].
  exact (cinv_issue s n q id b (RWrite off cipher) (upd (c_mem s) b buf) I Hu C1 C2
           (fun m Hm => upd_neq _ _ _ _ Hm) Logic.I).
Qed.

Lemma sim_flush : forall s p n q id s' t, sim s p -> call_ok s (CFlush n q id) ->
  cstep enc dec size s (CFlush n q id) = Some (s', t) ->
  exists p', dstep size p (DIssue n q id RFlush) = Some (p', t) /\ sim s' p'.
Proof.
  intros s p n q id s' t [I S] C H. cbn [cstep] in H.
  destruct (dstep size (c_base s) (DIssue n q id RFlush)) as [[d t0]|] eqn:E; [|discriminate].
  injection H as <- <-.
  destruct (dsim_issue (c_base s) p n q id RFlush RFlush d t0 S E Logic.I) as (p' & Hp & S').
  exists p'. split; [exact Hp|]. split; [|exact S'].
  apply issue_used in E. destruct E as [Hu ->].
  exact (cinv_issue s n q id 0 RFlush (c_mem s) I Hu C Logic.I (fun m _ => eq_refl) (fun m => eq_refl)).
Qed.

Lemma sim_base : forall s p e s' t, sim s p -> cstep enc dec size s (CBase e) = Some (s', t) ->
  t = [] /\ exists p', dstep size p e = Some (p', []) /\ sim s' p'.
Proof.
  intros s p e s' t [I S] H. cbn [cstep] in H.
  destruct e as [| n i | n i | |]; try discriminate.
  - destruct (dstep size (c_base s) (DApply n i)) as [[d t0]|] eqn:E; [|discriminate].
    injection H as <- <-. split; [reflexivity|].
    destruct (dsim_step _ _ _ _ _ S E) as (p' & Hp & S'). { discriminate. }
    exists p'.
    cbn [dstep] in E. destruct (d_ops (c_base s) n) as [[c id [|off data app|]]|] eqn:Eo; try discriminate.
    destruct (nth_error data i); [|discriminate]. destruct (_ && _); [|discriminate].
    injection E as <- <-. split; [exact Hp|]. split; [|exact S'].
    destruct I as [I1 I2 I3 I4 I5 I6].
    assert (P : forall m o, upd (d_ops (c_base s)) n (Some (mk_dop c id (DWrite off data (upd app i true)))) m = Some o ->
       exists o0, d_ops (c_base s) m = Some o0 /\ d_ch o0 = d_ch o /\ d_id o0 = d_id o /\
        is_flush (d_kind o0) = is_flush (d_kind o) /\
        (forall off len got, d_kind o = DRead off len got -> o0 = o)).
    { intros m o Ho. destruct (Nat.eq_dec m n) as [->|Hm].
      - rewrite upd_eq in Ho. injection Ho as <-. eexists. split; [exact Eo|]. cbn. repeat (split; [reflexivity|]). discriminate.
      - rewrite upd_neq in Ho by auto. exists o. auto 6. }
    split; cbn.
    + intros m o off' len' got Ho Hk. destruct (P m o Ho) as (o0 & A & _ & _ & _ & B).
      rewrite (B _ _ _ Hk) in A. eauto.
    + intros q' id' r Hr. destruct (I2 _ _ _ Hr) as (m & o & got & A & B & D & F).
      exists m, o, got. rewrite upd_neq; [auto|]. intros ->. rewrite Eo in A. injection A as <-. discriminate.
    + intros m m' o o' Ho Ho' Ec Ei. destruct (P m o Ho) as (o0 & A & B & D & _), (P m' o' Ho') as (o1 & A' & B' & D' & _).
      eapply I3; eauto; congruence.
    + intros m m' o o' Ho Ho' Fo Fo' Eb.
      destruct (P m o Ho) as (o0 & A & B & D & F & _), (P m' o' Ho') as (o1 & A' & B' & D' & F' & _).
      eapply I4; [exact A|exact A'| | |]; congruence.
    + intros m o Ho. destruct (P m o Ho) as (o0 & A & _). eauto.
    + exact I6.
  - destruct (dstep size (c_base s) (DSample n i)) as [[d t0]|] eqn:E; [|discriminate].
    destruct (dsim_step _ _ _ _ _ S E) as (p' & Hp & S'). { discriminate. }
    cbn [dstep] in E. destruct (d_ops (c_base s) n) as [[c id [off len got0| |]]|] eqn:Eo; try discriminate.
    destruct ((off + i <? size) && (i <? len)) eqn:G; [|discriminate].
    apply andb_true_iff in G. destruct G as [_ G]. apply Nat.ltb_lt in G.
    injection E as <- <-. unfold set_kind in H. cbn [d_ops] in H. rewrite upd_eq in H. cbn [d_ch d_id] in H.
    injection H as <- <-. split; [reflexivity|]. exists p'. split; [exact Hp|]. split; [|exact S'].
    destruct I as [I1 I2 I3 I4 I5 I6]. unfold set_kind.
    set (g1 := upd got0 i (cur (d_hist (c_base s) (off + i)))).
    assert (P : forall m o, upd (d_ops (c_base s)) n (Some (mk_dop c id (DRead off len g1))) m = Some o ->
       exists o0, d_ops (c_base s) m = Some o0 /\ d_ch o0 = d_ch o /\ d_id o0 = d_id o /\
        is_flush (d_kind o0) = is_flush (d_kind o)).
    { intros m o Ho. destruct (Nat.eq_dec m n) as [->|Hm].
      - rewrite upd_eq in Ho. injection Ho as <-. eexists. split; [exact Eo|]. cbn. auto.
      - rewrite upd_neq in Ho by auto. exists o. auto 6. }
    destruct (I1 n _ off len got0 Eo eq_refl) as (En & Ln & Gn). cbn in En.
    split; cbn.
    + intros m o off' len' got Ho Hk. destruct (Nat.eq_dec m n) as [->|Hm].
      * rewrite upd_eq in Ho. injection Ho as <-. cbn in Hk. injection Hk as <- <- <-. cbn.
        split; [exact En|]. rewrite upd_eq, set_nth_length. split; [exact Ln|].
        intros j Hj. unfold g1. destruct (Nat.eq_dec j i) as [->|Hji].
        { rewrite nth_error_set_nth_eq by lia. now rewrite upd_eq. }
        rewrite nth_error_set_nth_neq by auto. rewrite upd_neq by auto. now apply Gn.
      * rewrite upd_neq in Ho by auto. destruct (I1 _ _ _ _ _ Ho Hk) as (A & B & D).
        assert (c_buf s m <> c_buf s n).
        { intros Eb. apply Hm. eapply I4; [exact Ho|exact Eo|now rewrite Hk|reflexivity|exact Eb]. }
        rewrite upd_neq by auto. auto.
    + intros q' id' r Hr. destruct (I2 _ _ _ Hr) as (m & o & got & A & B & D & F).
      destruct (Nat.eq_dec m n) as [->|Hm].
      * rewrite Eo in A. injection A as <-. cbn in *. injection F as E1 E2 E3.
        exists n. eexists. eexists. rewrite upd_eq. split; [reflexivity|]. cbn.
        split; [exact B|]. split; [exact D|]. now rewrite E1, E2.
      * exists m, o, got. rewrite upd_neq; auto.
    + intros m m' o o' Ho Ho' Ec Ei. destruct (P m o Ho) as (o0 & A & B & D & _), (P m' o' Ho') as (o1 & A' & B' & D' & _).
      eapply I3; eauto; congruence.
    + intros m m' o o' Ho Ho' Fo Fo' Eb.
      destruct (P m o Ho) as (o0 & A & B & D & F), (P m' o' Ho') as (o1 & A' & B' & D' & F').
      eapply I4; [exact A|exact A'| | |]; congruence.
    + intros m o Ho. destruct (P m o Ho) as (o0 & A & _). eauto.
    + exact I6.
Qed.

Lemma done_ops : forall (b : disk V) n ok b' t, dstep size b (DDone n ok) = Some (b', t) ->
  (forall m, d_ops b' m = upd (d_ops b) n None m) /\ (forall m, d_used b' m = d_used b m).
Proof.
  intros b n ok b' t H. cbn in H. destruct (d_ops b n) as [[c id k]|]; [|discriminate].
  destruct ok; [destruct k|]; repeat match type of H with
    | (if ?c then _ else _) = _ => destruct c; [|discriminate] end;
  injection H as <- <-; cbn; auto.
Qed.

Lemma cinv_done : forall s n o d reads mem,
  cinv s -> d_ops (c_base s) n = Some o ->
  (forall m, d_ops d m = upd (d_ops (c_base s)) n None m) -> (forall m, d_used d m = d_used (c_base s) m) ->
  (forall q id, (q, id) <> (d_ch o, d_id o) -> reads q id = c_reads s q id) ->
  reads (d_ch o) (d_id o) = None ->
  (forall m, is_flush (d_kind o) = false -> m <> c_buf s n -> mem m = c_mem s m) ->
  (is_flush (d_kind o) = true -> forall m, mem m = c_mem s m) ->
  cinv (mk_cdev reads mem d (c_buf s) (c_panic s)).
Proof.
  intros s n o d reads mem [I1 I2 I3 I4 I5 I6] Ho Hd Hu Hr Hr0 Hm Hm'.
  assert (P : forall m o', d_ops d m = Some o' -> m <> n /\ d_ops (c_base s) m = Some o').
  { intros m o' E. rewrite Hd in E. destruct (Nat.eq_dec m n) as [->|Hne]; [now rewrite upd_eq in E|].
    rewrite upd_neq in E by auto. auto. }
  split; cbn.
  - intros m o' off len got E Hk. apply P in E. destruct E as [Hne E].
    destruct (I1 _ _ _ _ _ E Hk) as (A & B & D).
    rewrite Hr. 2:{ intros Hq. injection Hq as E1 E2. apply Hne. eapply I3; eauto. }
    assert (M : mem (c_buf s m) = c_mem s (c_buf s m)).
    { destruct (is_flush (d_kind o)) eqn:F; [now apply Hm'|]. apply Hm; auto.
      intros Eb. apply Hne. eapply I4; [exact E|exact Ho|now rewrite Hk|exact F|exact Eb]. }
    rewrite M. auto.
  - intros q id r E. assert (Hne : (q, id) <> (d_ch o, d_id o)).
    { intros Hq. injection Hq as -> ->. congruence. }
    rewrite Hr in E by exact Hne. destruct (I2 _ _ _ E) as (m & o' & got & A & B & D & F).
    exists m, o', got. rewrite Hd, upd_neq; [auto|]. intros ->. apply Hne. rewrite Ho in A.
    injection A as <-. congruence.
  - intros m m' o1 o2 E1 E2. apply P in E1, E2. destruct E1, E2. eauto.
  - intros m m' o1 o2 E1 E2. apply P in E1, E2. destruct E1, E2. eauto.
  - intros m o' E. apply P in E. destruct E as [_ E]. rewrite Hu. eauto.
  - exact I6.
Qed.

Lemma pair_dec : forall (a b : nat * nat), {a = b} + {a <> b}.
Proof. decide equality; apply Nat.eq_dec. Qed.

Lemma upd2_neq : forall {A} (f : nat -> nat -> A) q id x q' id', (q', id') <> (q, id) -> upd2 f q id x q' id' = f q' id'.
Proof.
  intros A f q id x q' id' H. unfold upd2. destruct (Nat.eq_dec q' q) as [->|Hq].
  - rewrite upd_eq. apply upd_neq. congruence.
  - now rewrite upd_neq.
Qed.

Lemma upd2_eq : forall {A} (f : nat -> nat -> A) q id x, upd2 f q id x q id = x.
Proof. intros. unfold upd2. now rewrite !upd_eq. Qed.

Lemma sim_done : forall s p n ok s' t, sim s p -> cstep enc dec size s (CDone n ok) = Some (s', t) ->
  exists p', dstep size p (DDone n ok) = Some (p', t) /\ sim s' p'.
Proof.
  intros s p n ok s' t [I S] H. cbn [cstep] in H.
  destruct (d_ops (c_base s) n) as [o|] eqn:Ho; [|discriminate].
  destruct (dstep size (c_base s) (DDone n ok)) as [[d t0]|] eqn:E; [|discriminate].
  destruct (dsim_step _ _ _ _ _ S E) as (p' & Hp & S'). { discriminate. }
  destruct (done_ops _ _ _ _ _ E) as [Hd Hu].
  injection H as <- <-. exists p'.
  assert (T : t0 = [TDone n (d_ch o) (d_id o) ok
      (match d_kind o with DRead _ len got => if ok then read_data len got else [] | _ => [] end)]).
  { cbn in E. rewrite Ho in E. destruct o as [c id k]. cbn.
    destruct ok; [destruct k|]; repeat match type of E with
      | (if ?c then _ else _) = _ => destruct c; [|discriminate] end; injection E as <- <-; try reflexivity.
    now destruct k. }
  subst t0. cbn [map] in Hp. rewrite Ho in Hp.
  destruct (c_reads s (d_ch o) (d_id o)) as [r|] eqn:Er.
  - (* the completed request is the recorded read *)
    destruct (ci_entry _ I _ _ _ Er) as (m & o' & got & Hm & Ec & Ei & Hk).
    assert (m = n) by (eapply (ci_ids _ I); eauto). subst m.
    rewrite Ho in Hm. injection Hm as <-.
    destruct (ci_read _ I _ _ _ _ _ Ho Hk) as (Er' & HL & Hg).
    rewrite Er in Er'. injection Er' as Er'. 
    destruct r as [ro rc rb]. cbn [r_off r_cnt] in *. injection Er' as ->.
    unfold poll_one. cbn [c_reads]. rewrite Er. cbn [c_mem c_base c_buf c_panic r_off r_cnt r_buf].
    rewrite Hk in *. destruct ok.
    + destruct (crypt_loop_ok dec ro rc 0 (c_mem s (c_buf s n))) as (buf & Eb & Lb & Nb). { lia. }
      rewrite Eb. cbn [c_mem]. rewrite upd_eq.
      assert (Ed : firstn rc buf = map (fun i => option_map (dec (ro + i)) (got i)) (seq 0 rc)).
      { apply nth_error_ext. intros i. rewrite nth_error_firstn, nth_error_map_seq, Nb.
        cbn [Nat.leb andb]. rewrite Nat.add_0_l. destruct (i <? rc) eqn:Hi; [|reflexivity].
        apply Nat.ltb_lt in Hi. rewrite Hg by exact Hi. reflexivity. }
      rewrite Ed. split; [exact Hp|]. split; [|exact S'].
      eapply cinv_done; eauto.
      * intros q id Hne. now apply upd2_neq.
      * apply upd2_eq.
      * intros m _ Hm. now apply upd_neq.
      * rewrite Hk. discriminate.
    + split; [exact Hp|]. split; [|exact S'].
      eapply cinv_done; eauto.
      * intros q id Hne. now apply upd2_neq.
      * apply upd2_eq.
  - (* a write or a flush *)
    unfold poll_one. cbn [c_reads]. rewrite Er. cbn [c_mem].
    assert (Hk : forall off len got, d_kind o <> DRead off len got).
    { intros off len got Hk. destruct (ci_read _ I _ _ _ _ _ Ho Hk) as (Er' & _). congruence. }
    split.
    + destruct (d_kind o) as [off len got| |] eqn:Hk'; [exfalso; eapply Hk; reflexivity| |];
        destruct ok; exact Hp.
    + split; [|exact S']. eapply cinv_done; eauto.
Qed.

Lemma sim_crash : forall s p sv s' t, sim s p -> cstep enc dec size s (CCrash sv) = Some (s', t) ->
  exists p', dstep size p (DCrash sv) = Some (p', t) /\ sim s' p'.
Proof.
  intros s p sv s' t [I S] H. cbn [cstep] in H.
  destruct (dstep size (c_base s) (DCrash sv)) as [[d t0]|] eqn:E; [|discriminate].
  destruct (dsim_step _ _ _ _ _ S E) as (p' & Hp & S'). { discriminate. }
  injection H as <- <-. cbn in E. injection E as <- <-. exists p'. split; [exact Hp|].
  split; [|exact S']. split; cbn; try discriminate; auto.
Qed.

Lemma drun_app1 : forall (d : disk V) es d1 t1 e d2 t2, drun size d es = Some (d1, t1) ->
  dstep size d1 e = Some (d2, t2) -> drun size d (es ++ [e]) = Some (d2, t1 ++ t2).
Proof.
  intros d es. revert d. induction es as [|e0 es IH]; intros d d1 t1 e d2 t2 H1 H2; cbn in *.
  - injection H1 as <- <-. rewrite H2. now rewrite app_nil_r.
  - destruct (dstep size d e0) as [[d3 t3]|]; [|discriminate].
    destruct (drun size d3 es) as [[d4 t4]|] eqn:E; [|discriminate]. injection H1 as <- <-.
    erewrite IH; eauto. now rewrite app_assoc.
Qed.

Lemma sim_run : forall contents es s tr0 p0 s' tr, sim s p0 ->
  disk_behaviour size contents tr0 p0 ->
  calls_ok enc dec size s es -> crun enc dec size s es = Some (s', tr) ->
  exists p', disk_behaviour size contents (tr0 ++ tr) p' /\ sim s' p'.
Proof.
  intros contents. induction es as [|e es IH]; intros s tr0 p0 s' tr S B C H; cbn [crun] in H.
  - injection H as <- <-. rewrite app_nil_r. eauto.
  - cbn [calls_ok] in C. destruct C as [C1 C2].
    destruct (cstep enc dec size s e) as [[s1 t1]|] eqn:E; [|discriminate].
    destruct (crun enc dec size s1 es) as [[s2 t2]|] eqn:E2; [|discriminate].
    injection H as <- <-.
    assert (Hs : exists p1, disk_behaviour size contents (tr0 ++ t1) p1 /\ sim s1 p1).
    { destruct B as [ds Hds].
      destruct e as [b data|n q id off cnt b|n q id off cnt b|n q id|e|n ok|sv].
      - destruct (sim_fill _ _ _ _ _ _ S C1 E) as [-> S1]. rewrite app_nil_r. exists p0.
        split; [now exists ds|exact S1].
      - destruct (sim_read _ _ _ _ _ _ _ _ _ _ S C1 E) as (p1 & D & S1). exists p1. split; [|exact S1].
        eexists. eapply drun_app1; eauto.
      - destruct (sim_write _ _ _ _ _ _ _ _ _ _ S C1 E) as (pl & p1 & _ & D & S1). exists p1. split; [|exact S1].
        eexists. eapply drun_app1; eauto.
      - destruct (sim_flush _ _ _ _ _ _ _ S C1 E) as (p1 & D & S1). exists p1. split; [|exact S1].
        eexists. eapply drun_app1; eauto.
      - destruct (sim_base _ _ _ _ _ S E) as (-> & p1 & D & S1). exists p1. split; [|exact S1].
        eexists. eapply drun_app1; eauto.
      - destruct (sim_done _ _ _ _ _ _ S E) as (p1 & D & S1). exists p1. split; [|exact S1].
        eexists. eapply drun_app1; eauto.
      - destruct (sim_crash _ _ _ _ _ S E) as (p1 & D & S1). exists p1. split; [|exact S1].
        eexists. eapply drun_app1; eauto. }
    destruct Hs as (p1 & B1 & S1).
    destruct (IH s1 (tr0 ++ t1) p1 s2 t2 S1 B1 C2 E2) as (p' & B' & S'').
    exists p'. rewrite <- app_assoc in B'. auto.
Qed.

Lemma sim_init : forall contents, sim (new_cdev contents) (new_disk (fun x => dec x (contents x))).
Proof.
  intros contents. split; split; cbn; try discriminate; auto.
Qed.
End Device.

(** ** A checker for the channel contract, used by the examples. *)
Section Check.
Context {V : Type}.
Variable enc dec : nat -> V -> V.
Variable size N : nat.

Definition all_ops (s : cdev V) (f : nat -> dop V -> bool) : bool :=
  forallb (fun n => match d_ops (c_base s) n with Some o => f n o | None => true end) (seq 0 N).
Definition id_freeb (s : cdev V) (q id : nat) : bool :=
  all_ops s (fun _ o => negb ((d_ch o =? q) && (d_id o =? id))).
Definition buf_freeb (s : cdev V) (b : nat) : bool :=
  all_ops s (fun n o => is_flush (d_kind o) || negb (c_buf s n =? b)).
Definition call_okb (s : cdev V) (e : cevent V) : bool :=
  match e with
  | CFill b _ => buf_freeb s b
  | CRead n q id _ cnt b | CWrite n q id _ cnt b =>
    (n <? N) && id_freeb s q id && buf_freeb s b && (cnt <=? length (c_mem s b))
  | CFlush n q id => (n <? N) && id_freeb s q id
  | _ => true
  end.
Fixpoint calls_okb (s : cdev V) (es : list (cevent V)) : bool :=
  match es with
  | [] => true
  | e :: r => call_okb s e && match cstep enc dec size s e with Some (s1, _) => calls_okb s1 r | None => true end
  end.

Definition below (s : cdev V) : Prop := forall n, N <= n -> d_ops (c_base s) n = None.

Lemma all_ops_sound : forall s f, below s -> all_ops s f = true ->
  forall n o, d_ops (c_base s) n = Some o -> f n o = true.
Proof.
  intros s f B H n o Ho. unfold all_ops in H. rewrite forallb_forall in H.
  destruct (le_lt_dec N n) as [L|L]; [rewrite B in Ho by exact L; discriminate|].
  specialize (H n). rewrite Ho in H. apply H. apply in_seq. lia.
Qed.

Lemma dstep_none : forall (d d' : disk V) e t m, dstep size d e = Some (d', t) ->
  (forall n c id r, e = DIssue n c id r -> n <> m) -> d_ops d m = None -> d_ops d' m = None.
Proof.
  intros d d' e t m H He Hm. destruct e as [n c id r|n i|n i|n ok|sv]; cbn in H.
  - destruct (d_used d n); [discriminate|]. injection H as <- <-. cbn.
    rewrite upd_neq; auto. intros ->. eapply He; eauto.
  - destruct (d_ops d n) as [[c id [|off data app|]]|] eqn:E; try discriminate.
    destruct (nth_error data i); [|discriminate]. destruct (_ && _); [|discriminate].
    injection H as <- <-. cbn. rewrite upd_neq; auto. intros ->. congruence.
  - destruct (d_ops d n) as [[c id [off len got| |]]|] eqn:E; try discriminate.
    destruct (_ && _); [|discriminate].
    injection H as <- <-. cbn. rewrite upd_neq; auto. intros ->. congruence.
  - destruct (done_ops size d n ok d' t H) as [E _]. rewrite E. unfold upd. destruct (m =? n); auto.
  - now injection H as <- <-.
Qed.

Lemma below_step : forall s e s' t, below s -> call_okb s e = true -> cstep enc dec size s e = Some (s', t) -> below s'.
Proof.
  intros s e s' t B C H m Hm. specialize (B m Hm). destruct e as [b data|n q id off cnt b|n q id off cnt b|n q id|e|n ok|sv]; cbn [cstep] in H.
  - now injection H as <- <-.
  - cbn [call_okb] in C. rewrite !andb_true_iff, Nat.ltb_lt in C. destruct C as [[[C _] _] _].
    destruct (dstep _ _ _) as [[d t0]|] eqn:E; [|discriminate]. injection H as <- <-. cbn [c_base].
    eapply dstep_none; eauto. intros ? ? ? ? Q. injection Q as <- <- <- <-. lia.
  - cbn [call_okb] in C. rewrite !andb_true_iff, Nat.ltb_lt in C. destruct C as [[[C _] _] _].
    destruct (defined _); [|discriminate]. destruct (crypt_loop _ _ _ _ _) as [buf| |]; [|now injection H as <- <-..].
    destruct (defined _); [|discriminate].
    destruct (dstep _ _ _) as [[d t0]|] eqn:E; [|discriminate]. injection H as <- <-. cbn [c_base].
    eapply dstep_none; eauto. intros ? ? ? ? Q. injection Q as <- <- <- <-. lia.
  - cbn [call_okb] in C. rewrite !andb_true_iff, Nat.ltb_lt in C. destruct C as [C _].
    destruct (dstep _ _ _) as [[d t0]|] eqn:E; [|discriminate]. injection H as <- <-. cbn [c_base].
    eapply dstep_none; eauto. intros ? ? ? ? Q. injection Q as <- <- <- <-. lia.
  - destruct e as [|n i|n i| |]; try discriminate; destruct (dstep _ _ _) as [[d t0]|] eqn:E; try discriminate.
    + injection H as <- <-. cbn [c_base]. eapply dstep_none; eauto. discriminate.
    + destruct (d_ops d n) as [[? ? []]|]; try discriminate. injection H as <- <-. cbn [c_base].
      eapply dstep_none; eauto. discriminate.
  - destruct (d_ops (c_base s) n) as [o|]; [|discriminate].
    destruct (dstep _ _ _) as [[d t0]|] eqn:E; [|discriminate]. injection H as <- <-.
    assert (c_base (poll_one dec (d_ch o) (d_id o) ok (mk_cdev (c_reads s) (c_mem s) d (c_buf s) (c_panic s))) = d) as ->.
    { unfold poll_one. cbn. destruct (c_reads s (d_ch o) (d_id o)); [|reflexivity]. destruct ok; [|reflexivity].
      destruct (crypt_loop _ _ _ _ _); reflexivity. }
    eapply dstep_none; eauto. discriminate.
  - destruct (dstep _ _ _) as [[d t0]|] eqn:E; [|discriminate]. injection H as <- <-. cbn [c_base].
    eapply dstep_none; eauto. discriminate.
Qed.

Lemma call_okb_sound : forall s e, below s -> call_okb s e = true -> call_ok s e.
Proof.
  assert (Hid : forall s q id, below s -> id_freeb s q id = true -> id_free s q id).
  { intros s q id B H n o Ho Hq Hi. pose proof (all_ops_sound _ _ B H n o Ho) as E. cbn in E.
    subst q id. rewrite !Nat.eqb_refl in E. discriminate. }
  assert (Hb : forall s b, below s -> buf_freeb s b = true -> buf_free s b).
  { intros s b B H n o Ho Hf Eb. pose proof (all_ops_sound _ _ B H n o Ho) as E. cbn in E.
    rewrite Hf, Eb, Nat.eqb_refl in E. discriminate. }
  intros s e B H. destruct e; cbn [call_okb call_ok] in *; auto;
    rewrite ?andb_true_iff, ?Nat.ltb_lt, ?Nat.leb_le in H; intuition.
Qed.

Lemma calls_okb_sound : forall es s, below s -> calls_okb s es = true -> calls_ok enc dec size s es.
Proof.
  induction es as [|e es IH]; intros s B H; cbn [calls_ok calls_okb] in *; auto.
  apply andb_true_iff in H. destruct H as [H1 H2]. split; [now apply call_okb_sound|].
  destruct (cstep enc dec size s e) as [[s1 t1]|] eqn:E; auto.
  apply IH; auto. eapply below_step; eauto.
Qed.
End Check.
