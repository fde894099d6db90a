(** The synchronous device simulates an ordinary disk of units. *)
From Coq Require Import List Permutation Arith NArith ZArith Bool Lia ZifyBool ZifyNat ZifyN.
Import ListNotations.
From Verif Require Import Base BaseFacts ListFacts DiskSpec CryptModel SyncModel SyncSpec.

Ltac Zify.zify_post_hook ::= Z.div_mod_to_equations.

Lemma upd_eq' : forall {A} (f : nat -> A) n v, upd f n v n = v.
Proof. intros. unfold upd. now rewrite Nat.eqb_refl. Qed.
Lemma upd_neq' : forall {A} (f : nat -> A) n v m, m <> n -> upd f n v m = f m.
Proof. intros. unfold upd. destruct (Nat.eqb_spec m n); congruence. Qed.

(** Only the last element may satisfy [P]. *)
Definition lastonly {A} (P : A -> Prop) (l : list A) : Prop :=
  forall a e b, l = a ++ e :: b -> P e -> b = [].

Lemma lastonly_tail : forall {A} (P : A -> Prop) e l, lastonly P (e :: l) -> lastonly P l.
Proof. intros A P e l H a x b -> Hx. exact (H (e :: a) x b eq_refl Hx). Qed.

Lemma lastonly_cons : forall {A} (P : A -> Prop) e l, ~ P e -> lastonly P l -> lastonly P (e :: l).
Proof.
  intros A P e l N H a x b E Hx. destruct a as [|y a]; injection E as <- ->; [contradiction|].
  exact (H a x b eq_refl Hx).
Qed.

Lemma lastonly_single : forall {A} (P : A -> Prop) e, lastonly P [e].
Proof. intros A P e a x b E Hx. destruct a as [|y [|z a]]; inversion E; auto. Qed.

Lemma lastonly_prefix : forall {A} (P : A -> Prop) l r, lastonly P (l ++ r) -> lastonly P l.
Proof.
  intros A P l r H a x b -> Hx. rewrite <- app_assoc in H. cbn in H.
  specialize (H a x (b ++ r) eq_refl Hx). now apply app_eq_nil in H.
Qed.

Lemma lastonly_imp : forall {A} (P Q : A -> Prop) l, (forall e, In e l -> Q e -> P e) -> lastonly P l -> lastonly Q l.
Proof. intros A P Q l H L a x b E Hx. apply (L a x b E). apply H; auto. rewrite E. apply in_elt. Qed.

Section S.
Context {V : Type}.
Variable readonly osync : bool.
Variable us : N.
Variable per : nat.
Variable units_ok : (us * N.of_nat per = 512)%N.
Variable nsec : nat.
Notation size := (nsec * per).
Variable size_ok : (N.of_nat nsec < 2 ^ 55)%N.

Lemma unit_offset_ok : forall soff, soff <= nsec -> unit_offset us soff = soff * per.
Proof.
  intros soff H. unfold unit_offset, byte_offset. rewrite N.mod_small.
  - rewrite <- units_ok. replace (N.of_nat soff * (us * N.of_nat per))%N with ((N.of_nat soff * N.of_nat per) * us)%N by ring.
    assert (us <> 0)%N by (intros ->; discriminate units_ok). rewrite N.div_mul by assumption. lia.
  - change (2 ^ 64)%N with (2 ^ 55 * 512)%N. lia.
Qed.

Lemma settle_prefix : forall st (l : list (cell V)), exists r, l = settle st l ++ r.
Proof.
  intros st l. induction l as [|e l (r & IH)]; [exists []; auto|]. cbn. destruct (st e).
  - exists l. reflexivity.
  - exists r. cbn. now rewrite <- IH.
Qed.

Lemma settle_nonempty : forall st (l : list (cell V)), l <> [] -> settle st l <> [].
Proof. intros st [|e l]; cbn; [congruence|]. destruct (st e); congruence. Qed.

Lemma settle_last : forall st (P : cell V -> Prop) l, (forall e, In e l -> P e -> st e = true) ->
  lastonly P (settle st l).
Proof.
  intros st P l. induction l as [|e l IH]; intros H; cbn.
  - intros a x b E. destruct a; discriminate.
  - destruct (st e) eqn:E; [apply lastonly_single|].
    apply lastonly_cons.
    + intros Hp. rewrite (H e) in E; [discriminate|now left|auto].
    + apply IH. intros x Hx. apply H. now right.
Qed.

Lemma settle_in : forall st (l : list (cell V)) e, In e (settle st l) -> In e l.
Proof. intros st l e H. destruct (settle_prefix st l) as (r & ->). apply in_or_app. now left. Qed.

Lemma trim_prefix : forall {A B} (g : A -> nat * B) du (l : list A) rest,
  lastonly (fun e => du (fst (g e)) = true) l -> l <> [] ->
  exists rest', trim du (map g l ++ rest) = map g l ++ rest'.
Proof.
  intros A B g du l rest. induction l as [|e l IH]; intros L N; [congruence|].
  cbn. destruct (du (fst (g e))) eqn:E.
  - rewrite (L [] e l eq_refl E). exists []. reflexivity.
  - destruct l as [|e' l].
    + cbn. eexists. reflexivity.
    + destruct IH as (rest' & IH). { eapply lastonly_tail; eauto. } { congruence. }
      rewrite IH. exists rest'. reflexivity.
Qed.

Lemma store_at : forall t n l (f : nat -> list (cell V)) off x,
  store t n f off l x =
  match nth_error l (x - off) with
  | Some v => if off <=? x then mk_cell t n v :: f x else f x
  | None => f x
  end.
Proof.
  intros t n l. induction l as [|v l IH]; intros f off x; cbn [store].
  - now destruct (x - off).
  - rewrite IH. destruct (Nat.eq_dec x off) as [->|N].
    + rewrite Nat.sub_diag, upd_eq'. cbn [nth_error]. rewrite Nat.leb_refl.
      replace (S off <=? off) with false by lia. now destruct (nth_error l _).
    + rewrite upd_neq' by auto. destruct (Nat.leb_spec off x).
      * replace (x - off) with (S (x - S off)) by lia. cbn [nth_error].
        replace (S off <=? x) with true by lia. reflexivity.
      * replace (x - off) with 0 by lia. cbn [nth_error].
        replace (S off <=? x) with false by lia. now destruct (nth_error l _).
Qed.

Lemma fetch_at : forall (f : nat -> list (cell V)) k off l, fetch f off k = Some l ->
  length l = k /\ forall i, i < k -> nth_error l i = cur_cell (f (off + i)).
Proof.
  intros f k. induction k as [|k IH]; intros off l H; cbn in H.
  - injection H as <-. split; auto. lia.
  - destruct (cur_cell (f off)) as [v|] eqn:Ev; [|discriminate].
    destruct (fetch f (S off) k) as [l'|] eqn:E; [|discriminate]. injection H as <-.
    destruct (IH _ _ E) as (L & N). split; [cbn; lia|]. intros [|i] Hi; cbn.
    + now rewrite Nat.add_0_r.
    + rewrite N by lia. f_equal. f_equal. lia.
Qed.

(** ** Runs of the specification disk *)
Lemma drun_app : forall sz (d : disk V) es1 es2 d1 t1 d2 t2,
  drun sz d es1 = Some (d1, t1) -> drun sz d1 es2 = Some (d2, t2) -> drun sz d (es1 ++ es2) = Some (d2, t1 ++ t2).
Proof.
  intros sz d es1. revert d. induction es1 as [|e es1 IH]; intros d es2 d1 t1 d2 t2 H1 H2; cbn in *.
  - injection H1 as <- <-. exact H2.
  - destruct (dstep sz d e) as [[d' t']|]; [|discriminate].
    destruct (drun sz d' es1) as [[d'' t'']|] eqn:E; [|discriminate]. injection H1 as <- <-.
    rewrite (IH _ _ _ _ _ _ E H2). now rewrite app_assoc.
Qed.

Lemma sample_run : forall c id off len n k pos (d : disk V) got,
  off + len <= size -> pos + k <= len ->
  d_ops d n = Some (mk_dop c id (DRead off len got)) ->
  exists d' got', drun size d (map (DSample n) (seq pos k)) = Some (d', []) /\
    d_ops d' n = Some (mk_dop c id (DRead off len got')) /\
    (forall m, m <> n -> d_ops d' m = d_ops d m) /\
    d_used d' = d_used d /\ d_hist d' = d_hist d /\ d_done d' = d_done d /\
    (forall i, got' i = if (pos <=? i) && (i <? pos + k) then cur (d_hist d (off + i)) else got i).
Proof.
  intros c id off len n k. induction k as [|k IH]; intros pos d got H1 H2 H3.
  - exists d, got. repeat split; auto. intros i.
    replace ((pos <=? i) && (i <? pos + 0)) with false by lia. reflexivity.
  - cbn [seq map drun dstep]. rewrite H3.
    replace ((off + pos <? size) && (pos <? len)) with true by lia. cbn [d_ch d_id].
    destruct (IH (S pos) (set_kind n (mk_dop c id (DRead off len got))
      (DRead off len (upd got pos (cur (d_hist d (off + pos))))) d)
      (upd got pos (cur (d_hist d (off + pos))))) as (d' & got' & R & O & M & U & Hh & Dn & G); [lia|lia| |].
    { cbn. now rewrite upd_eq'. }
    cbn [d_ch d_id] in R. rewrite R. exists d', got'. split; [reflexivity|]. split; [exact O|].
    split. { intros m Hm. rewrite M by auto. cbn. now rewrite upd_neq' by auto. }
    split; [exact U|]. split; [exact Hh|]. split; [exact Dn|].
    intros i. rewrite G. cbn [d_hist set_kind].
    destruct (Nat.eq_dec i pos) as [->|N].
    + replace ((S pos <=? pos) && (pos <? S pos + k)) with false by lia.
      replace ((pos <=? pos) && (pos <? pos + S k)) with true by lia. now rewrite upd_eq'.
    + rewrite upd_neq' by auto.
      replace ((pos <=? i) && (i <? pos + S k)) with ((S pos <=? i) && (i <? S pos + k)) by lia. reflexivity.
Qed.

Lemma apply_run : forall c id off data n k pos (d : disk V) applied,
  off + length data <= size -> pos + k <= length data ->
  (forall i, pos <= i < pos + k -> applied i = false) ->
  d_ops d n = Some (mk_dop c id (DWrite off data applied)) ->
  exists d' applied', drun size d (map (DApply n) (seq pos k)) = Some (d', []) /\
    d_ops d' n = Some (mk_dop c id (DWrite off data applied')) /\
    (forall m, m <> n -> d_ops d' m = d_ops d m) /\
    d_used d' = d_used d /\ d_done d' = d_done d /\
    (forall i, applied' i = ((pos <=? i) && (i <? pos + k)) || applied i) /\
    (forall x, d_hist d' x = match nth_error (firstn k (skipn pos data)) (x - (off + pos)) with
                             | Some v => if off + pos <=? x then (n, v) :: d_hist d x else d_hist d x
                             | None => d_hist d x end).
Proof.
  intros c id off data n k. induction k as [|k IH]; intros pos d applied H1 H2 H4 H3.
  - exists d, applied. repeat split; auto.
    + intros i. replace ((pos <=? i) && (i <? pos + 0)) with false by lia. reflexivity.
    + intros x. cbn [firstn]. now destruct (x - (off + pos)).
  - cbn [seq map drun dstep]. rewrite H3.
    destruct (nth_error data pos) as [v|] eqn:Ev. 2:{ apply nth_error_None in Ev. lia. }
    rewrite (H4 pos) by lia.
    replace ((off + pos <? size) && negb false) with true by lia.
    set (d1 := mk_disk _ _ _ _).
    destruct (IH (S pos) d1 (upd applied pos true)) as (d' & ap' & R & O & M & U & Dn & A & Hh); [lia|lia| | |].
    { intros i Hi. rewrite upd_neq' by lia. apply H4. lia. }
    { cbn. now rewrite upd_eq'. }
    rewrite R. exists d', ap'. split; [reflexivity|]. split; [exact O|].
    split. { intros m Hm. rewrite M by auto. cbn. now rewrite upd_neq' by auto. }
    split; [exact U|]. split; [exact Dn|]. split.
    + intros i. rewrite A. destruct (Nat.eq_dec i pos) as [->|N].
      * rewrite upd_eq'. replace ((pos <=? pos) && (pos <? pos + S k)) with true by lia. apply orb_true_r.
      * rewrite upd_neq' by auto.
        replace ((pos <=? i) && (i <? pos + S k)) with ((S pos <=? i) && (i <? S pos + k)) by lia. reflexivity.
    + intros x. rewrite Hh.
      assert (Es : skipn pos data = v :: skipn (S pos) data).
      { clear - Ev. revert data Ev. induction pos as [|p IH]; intros [|y data] Ev; try discriminate.
        - cbn in *. now injection Ev as ->.
        - cbn [skipn]. now rewrite IH. }
      rewrite Es. cbn [firstn]. unfold d1. cbn [d_hist].
      destruct (Nat.eq_dec x (off + pos)) as [->|N].
      * replace (off + pos - (off + pos)) with 0 by lia. cbn [nth_error].
        rewrite Nat.leb_refl, upd_eq'. replace (off + S pos <=? off + pos) with false by lia.
        now destruct (nth_error _ (off + pos - (off + S pos))).
      * rewrite upd_neq' by auto. destruct (Nat.leb_spec (off + pos) x).
        -- replace (x - (off + pos)) with (S (x - (off + S pos))) by lia. cbn [nth_error].
           replace (off + S pos <=? x) with true by lia. reflexivity.
        -- replace (off + S pos <=? x) with false by lia. replace (off + pos <=? x) with false by lia.
           destruct (nth_error (firstn k _) _), (nth_error (v :: _) _); reflexivity.
Qed.

(** ** The simulation *)
Variable wt : bool.
Hypothesis wt_osync : wt = true -> osync = true.

(** Serial numbers on the specification side. *)
Definition ser (n : nat) : nat := if wt then 2 * n else n.
Definition ren (t : titem V) : list (titem V) := if wt then flush_after t else [t].

Lemma ser_inj : forall n m, ser n = ser m -> n = m.
Proof. unfold ser. destruct wt; intros; lia. Qed.

Definition entry (e : cell V) : nat * V := (ser (ce_by e), ce_val e).

(** A call in progress and its request on the disk. *)
Definition going_ok (s : sdev V) (g : going V) (k : dkind V) : Prop :=
  match g with
  | GRead off buf pos =>
    off + length buf <= size /\ pos <= length buf /\
    exists got, k = DRead off (length buf) got /\ forall i, i < pos -> got i = nth_error buf i
  | GWrite off data pos cached =>
    off + length data <= size /\ pos + cached <= length data /\
    exists applied, k = DWrite off data applied /\ forall i, applied i = (i <? pos + cached)
  | GSync since => exists snap, k = DFlush snap /\
    forall x e, In e (s_cell s x) -> snap (ser (ce_by e)) = true -> ce_time e < since
  end.

Definition fin_ok (s : sdev V) (n : nat) (ok : bool) (data : list V) (k : dkind V) : Prop :=
  if ok then
    match k with
    | DRead off len got => len = length data /\ forall i, i < len -> got i = nth_error data i
    | DWrite off d applied => data = [] /\ (forall i, i < length d -> applied i = true) /\
        (osync = true -> forall x, lastonly (fun e => ce_by e = n) (s_cell s x))
    | DFlush snap => data = [] /\ forall x, lastonly (fun e => snap (ser (ce_by e)) = true) (s_cell s x)
    end
  else data = [].

Definition serials (c : chan V) : list nat :=
  map (fun '(n, _, _, _) => n) (ch_finished c) ++
  match ch_going c with Some (n, _, _) => [n] | None => [] end.

Record sim (s : sdev V) (d : disk V) : Prop := {
  sm_panic : s_panic s = false;
  sm_zero : s_used s 0 = true;
  sm_hist : forall x, exists rest, d_hist d x = map entry (s_cell s x) ++ rest;
  sm_cell : forall x, s_cell s x <> [];
  sm_time : forall x e, In e (s_cell s x) -> ce_time e < s_now s;
  sm_by : forall x e, In e (s_cell s x) -> s_used s (ce_by e) = true;
  sm_len : size <= s_len s;
  sm_used : forall n, s_used s n = false -> d_used d (ser n) = false /\ (wt = true -> d_used d (2 * n + 1) = false);
  sm_done : forall m, d_done d m = true -> d_used d m = true;
  sm_ops : forall m o, d_ops d m = Some o -> d_used d m = true;
  sm_snap : forall m c id snap, d_ops d m = Some (mk_dop c id (DFlush snap)) ->
     forall m', snap m' = true -> d_done d m' = true;
  sm_nodup : forall q, NoDup (serials (s_chan s q));
  sm_out : forall q n, In n (serials (s_chan s q)) ->
     s_used s n = true /\ d_done d (ser n) = false /\ (wt = true -> d_used d (2 * n + 1) = false);
  sm_going : forall q n id g, ch_going (s_chan s q) = Some (n, id, g) ->
     exists k, d_ops d (ser n) = Some (mk_dop q id k) /\ going_ok s g k;
  sm_fin : forall q n id ok data, In (n, id, ok, data) (ch_finished (s_chan s q)) ->
     exists k, d_ops d (ser n) = Some (mk_dop q id k) /\ fin_ok s n ok data k;
  (* with O_SYNC: bytes of a write in progress that are behind the loop, and bytes
     outside of it, are settled *)
  sm_sync : osync = true -> forall q n id off data pos cached,
     ch_going (s_chan s q) = Some (n, id, GWrite off data pos cached) ->
     forall x, ~ (off + pos <= x < off + pos + cached) -> lastonly (fun e => ce_by e = n) (s_cell s x);
  (* write-through: nothing older than a completed write is left *)
  sm_wt : osync = true -> forall x, lastonly (fun e => d_done d (ser (ce_by e)) = true) (s_cell s x)
}.

(** Cells evolve by pushing values of request [n] and dropping the oldest. *)
Definition evolve (n : nat) (s s' : sdev V) : Prop :=
  forall x, exists new rest, new ++ s_cell s x = s_cell s' x ++ rest /\
    Forall (fun e => ce_by e = n /\ ce_time e < s_now s') new.

Lemma evolve_in : forall n s s', evolve n s s' -> forall x e, In e (s_cell s' x) ->
  (ce_by e = n /\ ce_time e < s_now s') \/ In e (s_cell s x).
Proof.
  intros n s s' H x e He. destruct (H x) as (new & rest & E & F).
  assert (Hi : In e (new ++ s_cell s x)) by (rewrite E; apply in_or_app; auto).
  apply in_app_or in Hi as [Hi|Hi]; auto. left. rewrite Forall_forall in F. now apply F.
Qed.

Lemma evolve_last : forall n s s' (P : cell V -> Prop), evolve n s s' -> (forall e, ce_by e = n -> ~ P e) ->
  forall x, lastonly P (s_cell s x) -> lastonly P (s_cell s' x).
Proof.
  intros n s s' P H N x L. destruct (H x) as (new & rest & E & F).
  apply (lastonly_prefix _ _ rest). rewrite <- E. clear E.
  induction F as [|e new [F _] Fs IH]; auto. cbn. apply lastonly_cons; auto.
Qed.

Lemma evolve_refl : forall n s s', s_cell s' = s_cell s -> evolve n s s'.
Proof. intros n s s' E x. exists [], []. rewrite E, app_nil_r. auto. Qed.

Lemma serial_other : forall s d q q' n, sim s d -> In n (serials (s_chan s q)) -> q' <> q ->
  ~ In n (serials (s_chan s q')).
Proof.
  intros s d q q' n I H N H'.
  assert (Hop : forall q, In n (serials (s_chan s q)) -> exists id k, d_ops d (ser n) = Some (mk_dop q id k)).
  { clear - I. intros q H. unfold serials in H. apply in_app_or in H as [H|H].
    - apply in_map_iff in H as ([[[n' id] ok] data] & <- & H).
      destruct (sm_fin _ _ I _ _ _ _ _ H) as (k & E & _). eauto.
    - destruct (ch_going (s_chan s q)) as [[[n' id] g]|] eqn:E; [|contradiction]. destruct H as [<-|[]].
      destruct (sm_going _ _ I _ _ _ _ E) as (k & Eo & _). eauto. }
  apply Hop in H as (? & ? & E). apply Hop in H' as (? & ? & E'). congruence.
Qed.

Lemma serials_fin : forall (c : chan V) n id ok data, In (n, id, ok, data) (ch_finished c) -> In n (serials c).
Proof. intros c n id ok data H. apply in_or_app. left. apply in_map_iff. now exists (n, id, ok, data). Qed.

Lemma serials_going : forall (c : chan V) n id g, ch_going c = Some (n, id, g) -> In n (serials c).
Proof. intros c n id g H. apply in_or_app. right. rewrite H. now left. Qed.

Lemma fin_ok_evolve : forall n s s' m ok data k, evolve n s s' -> m <> n ->
  (forall snap, k = DFlush snap -> snap (ser n) = false) -> fin_ok s m ok data k -> fin_ok s' m ok data k.
Proof.
  intros n s s' m ok data k Ev Nm Hs H. unfold fin_ok in *. destruct ok; auto. destruct k as [off len got|off d ap|snap]; auto.
  - destruct H as (H1 & H2 & H3). split; auto. split; auto. intros Ho x.
    apply (evolve_last n s s'); auto. intros e -> E. congruence.
  - destruct H as (H1 & H2). split; auto. intros x. apply (evolve_last n s s'); auto.
    intros e -> E. rewrite (Hs snap eq_refl) in E. discriminate.
Qed.

Lemma going_ok_evolve : forall n s s' g k, evolve n s s' ->
  (forall snap, k = DFlush snap -> snap (ser n) = false) -> going_ok s g k -> going_ok s' g k.
Proof.
  intros n s s' g k Ev Hs H. destruct g as [off buf pos|off data pos cached|since]; auto.
  destruct H as (snap & -> & H). exists snap. split; auto. intros x e He E.
  destruct (evolve_in _ _ _ Ev _ _ He) as [[Hb _]|Hi]; eauto. rewrite Hb, (Hs snap eq_refl) in E. discriminate.
Qed.

(** One step of the call in progress on channel [q]. *)
Lemma sim_progress : forall s d s' d' q n id g k',
  sim s d -> ch_going (s_chan s q) = Some (n, id, g) ->
  s_panic s' = false -> s_used s' = s_used s -> s_now s < s_now s' -> s_len s <= s_len s' ->
  (forall q', q' <> q -> s_chan s' q' = s_chan s q') ->
  evolve n s s' -> (forall x, s_cell s' x <> []) ->
  (forall x, exists rest, d_hist d' x = map entry (s_cell s' x) ++ rest) ->
  (forall m, m <> ser n -> d_ops d' m = d_ops d m) -> d_used d' = d_used d -> d_done d' = d_done d ->
  d_ops d' (ser n) = Some (mk_dop q id k') ->
  (forall snap, k' = DFlush snap -> d_ops d (ser n) = Some (mk_dop q id k')) ->
  ((exists g', s_chan s' q = mk_chan (Some (n, id, g')) (ch_finished (s_chan s q)) /\ going_ok s' g' k' /\
      (osync = true -> forall off data pos cached, g' = GWrite off data pos cached ->
       forall x, ~ (off + pos <= x < off + pos + cached) -> lastonly (fun e => ce_by e = n) (s_cell s' x))) \/
   (exists ok data, s_chan s' q = mk_chan None (ch_finished (s_chan s q) ++ [(n, id, ok, data)]) /\ fin_ok s' n ok data k')) ->
  sim s' d'.
Proof.
  intros s d s' d' q n id g k' I Hg Hp Hu Hnow Hlen Hch Ev Hne Hh Hops Hdu Hdd Hop Hsn Hq.
  assert (Hn : In n (serials (s_chan s q))) by (eapply serials_going; eauto).
  destruct (sm_out _ _ I _ _ Hn) as (On & Dn & Wn).
  assert (Es : forall q', serials (s_chan s' q') = serials (s_chan s q')).
  { intros q'. destruct (Nat.eq_dec q' q) as [->|N]; [|now rewrite Hch].
    unfold serials. rewrite Hg. destruct Hq as [(g' & -> & _)|(ok & data & -> & _)]; cbn [ch_going ch_finished]; auto.
    now rewrite map_app, app_nil_r. }
  assert (Hd : forall q' m, In m (serials (s_chan s q')) -> q' <> q \/ m <> n -> ser m <> ser n /\ m <> n).
  { intros q' m Hm Hc. assert (m <> n). { destruct Hc; auto. intros ->. eapply serial_other in Hm; eauto. }
    split; auto. intros E. now apply ser_inj in E. }
  assert (Hsnap : forall m c i snap, d_ops d m = Some (mk_dop c i (DFlush snap)) -> snap (ser n) = false).
  { intros m c i snap E. destruct (snap (ser n)) eqn:Es'; auto.
    rewrite (sm_snap _ _ I _ _ _ _ E _ Es') in Dn. discriminate. }
  constructor; auto.
  - rewrite Hu. apply (sm_zero _ _ I).
  - intros x e He. destruct (evolve_in _ _ _ Ev _ _ He) as [[_ Ht]|Hi]; auto.
    apply (sm_time _ _ I) in Hi. lia.
  - intros x e He. rewrite Hu. destruct (evolve_in _ _ _ Ev _ _ He) as [[-> _]|Hi]; auto.
    now apply (sm_by _ _ I) in Hi.
  - pose proof (sm_len _ _ I). lia.
  - intros m. rewrite Hu, Hdu. apply (sm_used _ _ I).
  - intros m. rewrite Hdd, Hdu. apply (sm_done _ _ I).
  - intros m o E. rewrite Hdu. destruct (Nat.eq_dec m (ser n)) as [->|N].
    + destruct (sm_going _ _ I _ _ _ _ Hg) as (k & Ek & _). apply (sm_ops _ _ I _ _ Ek).
    + rewrite Hops in E by auto. apply (sm_ops _ _ I _ _ E).
  - intros m c i snap E. rewrite Hdd. destruct (Nat.eq_dec m (ser n)) as [->|N].
    + rewrite Hop in E. injection E as <- <- ->. apply (sm_snap _ _ I (ser n) q id). now apply (Hsn snap).
    + rewrite Hops in E by auto. apply (sm_snap _ _ I _ _ _ _ E).
  - intros q'. rewrite Es. apply (sm_nodup _ _ I).
  - intros q' m. rewrite Es, Hu, Hdd, Hdu. apply (sm_out _ _ I).
  - intros q' m i g0 E. destruct (Nat.eq_dec q' q) as [->|N].
    + destruct Hq as [(g' & Eq & Hgo & _)|(ok & data & Eq & _)]; rewrite Eq in E; cbn in E; [|discriminate].
      injection E as <- <- <-. eauto.
    + rewrite Hch in E by auto. destruct (sm_going _ _ I _ _ _ _ E) as (k & Ek & Hk).
      exists k. assert (Hm := serials_going _ _ _ _ E). destruct (Hd _ _ Hm (or_introl N)) as (Nd & _).
      rewrite Hops by auto. split; auto. apply (going_ok_evolve n s); auto. intros snap ->. eauto.
  - intros q' m i ok data H.
    assert (Hfin : In (m, i, ok, data) (ch_finished (s_chan s q')) -> (q' <> q \/ m <> n) ->
      exists k, d_ops d' (ser m) = Some (mk_dop q' i k) /\ fin_ok s' m ok data k).
    { intros Hi Hc. destruct (sm_fin _ _ I _ _ _ _ _ Hi) as (k & Ek & Hk).
      assert (Hm := serials_fin _ _ _ _ _ Hi). destruct (Hd _ _ Hm Hc) as (Nd & Nn).
      exists k. rewrite Hops by auto. split; auto. apply (fin_ok_evolve n s); auto. intros snap ->. eauto. }
    assert (Hold : In (m, i, ok, data) (ch_finished (s_chan s q)) -> m <> n).
    { intros Hi ->. pose proof (sm_nodup _ _ I q) as ND. unfold serials in ND. rewrite Hg in ND.
      apply NoDup_remove_2 in ND. apply ND. rewrite app_nil_r. apply in_map_iff. now exists (n, i, ok, data). }
    destruct (Nat.eq_dec q' q) as [->|N].
    + destruct Hq as [(g' & Eq & _)|(ok' & data' & Eq & Hf)]; rewrite Eq in H; cbn [ch_finished] in H.
      * apply Hfin; auto.
      * apply in_app_or in H as [H|[H|[]]]; [apply Hfin; auto|]. injection H as <- <- <- <-. eauto.
    + rewrite Hch in H by auto. apply Hfin; auto.
  - intros Ho q' m i off data pos cached E x Hx. destruct (Nat.eq_dec q' q) as [->|N].
    + destruct Hq as [(g' & Eq & _ & Hsy)|(ok' & data' & Eq & _)]; rewrite Eq in E; cbn in E; [|discriminate].
      injection E as <- <- ->. eapply Hsy; eauto.
    + rewrite Hch in E by auto. apply (evolve_last n s s'); auto.
      * intros e -> Em. assert (Hm := serials_going _ _ _ _ E). apply (Hd _ _ Hm (or_introl N)). auto.
      * eapply (sm_sync _ _ I); eauto.
  - intros Hw x. rewrite Hdd. apply (evolve_last n s s'); auto.
    + intros e ->. congruence.
    + apply (sm_wt _ _ I Hw).
Qed.

Lemma no_cells : forall s d n, sim s d -> s_used s n = false -> forall x, lastonly (fun e => ce_by e = n) (s_cell s x).
Proof.
  intros s d n I H x a e b E Hb. exfalso.
  assert (Hi : In e (s_cell s x)) by (rewrite E; apply in_elt).
  apply (sm_by _ _ I) in Hi. congruence.
Qed.

(** A call begins. *)
Lemma sim_begin : forall s d q n id g r,
  sim s d -> s_used s n = false -> ch_going (s_chan s q) = None ->
  (match g with
   | GRead off buf pos => r = RRead off (length buf) /\ pos = 0 /\ off + length buf <= size
   | GWrite off data pos cached => r = RWrite off data /\ pos = 0 /\ cached = 0 /\ off + length data <= size
   | GSync since => r = RFlush /\ since = s_now s
   end) ->
  sim (begins q n id g s) (dissue (ser n) q id r d).
Proof.
  intros s d q n id g r I Hu Hg Hr.
  destruct (sm_used _ _ I _ Hu) as (Un & Uw).
  assert (Dn : d_done d (ser n) = false).
  { destruct (d_done d (ser n)) eqn:E; auto. apply (sm_done _ _ I) in E. congruence. }
  assert (Hnot : forall q', ~ In n (serials (s_chan s q'))).
  { intros q' H. apply (sm_out _ _ I) in H as (H & _). congruence. }
  assert (Hcells : s_cell (begins q n id g s) = s_cell s) by (destruct g as [? [|] ?|? [|] ? ?|?]; reflexivity).
  assert (Hlen : s_len (begins q n id g s) = s_len s) by (destruct g as [? [|] ?|? [|] ? ?|?]; reflexivity).
  assert (Hnow : s_now (begins q n id g s) = S (s_now s)) by (destruct g as [? [|] ?|? [|] ? ?|?]; reflexivity).
  assert (Hused : s_used (begins q n id g s) = upd (s_used s) n true) by (destruct g as [? [|] ?|? [|] ? ?|?]; reflexivity).
  assert (Hpan : s_panic (begins q n id g s) = s_panic s) by (destruct g as [? [|] ?|? [|] ? ?|?]; reflexivity).
  assert (Hch : forall q', q' <> q -> s_chan (begins q n id g s) q' = s_chan s q').
  { intros q' N. destruct g as [? [|] ?|? [|] ? ?|?]; cbn; now rewrite upd_neq'. }
  assert (Hop : forall m, m <> ser n -> d_ops (dissue (ser n) q id r d) m = d_ops d m).
  { intros m N. cbn. now rewrite upd_neq'. }
  assert (Hopn : d_ops (dissue (ser n) q id r d) (ser n) = Some (mk_dop q id (start_kind d r))).
  { cbn. now rewrite upd_eq'. }
  assert (Hq : (s_chan (begins q n id g s) q = mk_chan (Some (n, id, g)) (ch_finished (s_chan s q)) /\
                going_ok (begins q n id g s) g (start_kind d r)) \/
               (s_chan (begins q n id g s) q = mk_chan None (ch_finished (s_chan s q) ++ [(n, id, true, [])]) /\
                fin_ok (begins q n id g s) n true [] (start_kind d r))).
  { destruct g as [off buf pos|off data pos cached|since].
    - destruct Hr as (-> & -> & Hr). destruct buf as [|b buf].
      + right. cbn. rewrite upd_eq'. split; auto. split; auto. intros; lia.
      + left. cbn [begins set_chan s_chan]. rewrite upd_eq'. split; auto. split; [exact Hr|]. split; [lia|].
        exists (fun _ => None). split; auto. intros; lia.
    - destruct Hr as (-> & -> & -> & Hr). destruct data as [|b data].
      + right. cbn [begins ends set_chan s_chan]. rewrite upd_eq'. split; auto. cbn. split; auto. split; [intros; lia|].
        intros _ x. eapply no_cells; eauto.
      + left. cbn [begins set_chan s_chan]. rewrite upd_eq'. split; auto. split; [exact Hr|]. split; [lia|].
        exists (fun _ => false). split; auto.
    - destruct Hr as (-> & ->). left. cbn [begins set_chan s_chan]. rewrite upd_eq'. split; auto.
      cbn. exists (d_done d). split; auto. intros x e He _. now apply (sm_time _ _ I) in He. }
  assert (Hser : serials (s_chan (begins q n id g s) q) = serials (s_chan s q) ++ [n]).
  { unfold serials at 2. rewrite Hg, app_nil_r.
    destruct Hq as [(-> & _)|(-> & _)]; unfold serials; cbn [ch_going ch_finished]; auto.
    now rewrite map_app, app_nil_r. }
  assert (Hin : forall q' m, In m (serials (s_chan (begins q n id g s) q')) -> In m (serials (s_chan s q')) \/ (q' = q /\ m = n)).
  { intros q' m H. destruct (Nat.eq_dec q' q) as [->|N]; [|rewrite Hch in H; auto].
    rewrite Hser in H. apply in_app_or in H as [H|[<-|[]]]; auto. }
  assert (Hne : forall m, s_used s m = true -> ser m <> ser n).
  { intros m Hm E. apply ser_inj in E. congruence. }
  assert (Hsn : forall m c i snap, d_ops (dissue (ser n) q id r d) m = Some (mk_dop c i (DFlush snap)) ->
     forall m', snap m' = true -> d_done d m' = true).
  { intros m c i snap E m' Hm'. destruct (Nat.eq_dec m (ser n)) as [->|N].
    - rewrite Hopn in E. injection E as _ _ E. destruct r; try discriminate. cbn in E. now injection E as <-.
    - rewrite Hop in E by auto. eapply (sm_snap _ _ I); eauto. }
  constructor; rewrite ?Hpan, ?Hlen, ?Hcells; try apply I.
  - rewrite Hused. unfold upd. destruct (0 =? n); auto. apply (sm_zero _ _ I).
  - intros x e He. rewrite Hnow. apply (sm_time _ _ I) in He. lia.
  - intros x e He. rewrite Hused. apply (sm_by _ _ I) in He. unfold upd. destruct (ce_by e =? n); auto.
  - intros m Hm. rewrite Hused in Hm. unfold upd in Hm. destruct (Nat.eqb_spec m n) as [E|N]; [discriminate|].
    destruct (sm_used _ _ I m Hm) as (U1 & U2). cbn [dissue d_used]. split.
    + rewrite upd_neq'; auto. intros E. now apply ser_inj in E.
    + intros Hw. rewrite upd_neq'; auto. unfold ser. rewrite Hw. lia.
  - intros m Hm. cbn [dissue d_done d_used] in *. apply (sm_done _ _ I) in Hm.
    unfold upd. destruct (m =? ser n); auto.
  - intros m o E. cbn [dissue d_used]. destruct (Nat.eq_dec m (ser n)) as [->|N]; [now rewrite upd_eq'|].
    rewrite upd_neq' by auto. rewrite Hop in E by auto. apply (sm_ops _ _ I _ _ E).
  - cbn [dissue d_done]. exact Hsn.
  - intros q'. destruct (Nat.eq_dec q' q) as [->|N]; [|rewrite Hch by auto; apply I].
    rewrite Hser. apply (Permutation_NoDup (Permutation_cons_append _ _)). constructor; [apply Hnot|apply I].
  - intros q' m Hm. cbn [dissue d_done d_used]. rewrite Hused. apply Hin in Hm as [Hm|[-> ->]].
    + destruct (sm_out _ _ I _ _ Hm) as (U & D & W). split. { unfold upd. destruct (m =? n); auto. }
      split; auto. intros Hw. rewrite upd_neq'; auto. unfold ser. rewrite Hw. lia.
    + rewrite upd_eq'. split; auto. split; auto. intros Hw. rewrite upd_neq'; auto. unfold ser. rewrite Hw. lia.
  - intros q' m i g0 E. destruct (Nat.eq_dec q' q) as [->|N].
    + destruct Hq as [(Eq & Hgo)|(Eq & _)]; rewrite Eq in E; cbn in E; [|discriminate].
      injection E as <- <- <-. eauto.
    + rewrite Hch in E by auto. destruct (sm_going _ _ I _ _ _ _ E) as (k & Ek & Hk).
      exists k. assert (Hm := serials_going _ _ _ _ E). apply (sm_out _ _ I) in Hm as (Hm & _).
      rewrite Hop by auto. split; auto. destruct g0; auto. cbn in *. now rewrite Hcells.
  - intros q' m i ok data H.
    assert (Hfin : In (m, i, ok, data) (ch_finished (s_chan s q')) ->
      exists k, d_ops (dissue (ser n) q id r d) (ser m) = Some (mk_dop q' i k) /\ fin_ok (begins q n id g s) m ok data k).
    { intros Hi. destruct (sm_fin _ _ I _ _ _ _ _ Hi) as (k & Ek & Hk).
      assert (Hm := serials_fin _ _ _ _ _ Hi). apply (sm_out _ _ I) in Hm as (Hm & _).
      exists k. rewrite Hop by auto. split; auto. unfold fin_ok in *. rewrite Hcells. exact Hk. }
    destruct (Nat.eq_dec q' q) as [->|N].
    + destruct Hq as [(Eq & _)|(Eq & Hf)]; rewrite Eq in H; cbn [ch_finished] in H; auto.
      apply in_app_or in H as [H|[H|[]]]; auto. injection H as <- <- <- <-. eauto.
    + rewrite Hch in H by auto. auto.
  - intros Ho q' m i off data pos cached E x Hx. destruct (Nat.eq_dec q' q) as [->|N].
    + destruct Hq as [(Eq & _)|(Eq & _)]; rewrite Eq in E; cbn in E; [|discriminate].
      injection E as <- <- ->. eapply no_cells; eauto.
    + rewrite Hch in E by auto. eapply (sm_sync _ _ I); eauto.
Qed.

(** The next result is reported. *)
Lemma sim_report : forall s d s' q n id ok data l,
  sim s d -> ch_going (s_chan s q) = None -> ch_finished (s_chan s q) = (n, id, ok, data) :: l ->
  s_panic s' = false -> s_used s' = s_used s -> s_cell s' = s_cell s -> s_len s' = s_len s -> s_now s <= s_now s' ->
  (forall q', q' <> q -> s_chan s' q' = s_chan s q') -> s_chan s' q = mk_chan None l ->
  exists es d', drun size d es = Some (d', ren (TDone n q id ok (map Some data))) /\ sim s' d'.
Proof.
  intros s d s' q n id ok data l I Hg Hf Hp Hu Hc Hl Hnow Hch Hq.
  assert (Hi : In (n, id, ok, data) (ch_finished (s_chan s q))) by (rewrite Hf; now left).
  destruct (sm_fin _ _ I _ _ _ _ _ Hi) as (k & Ek & Hk).
  assert (Hn := serials_fin _ _ _ _ _ Hi). destruct (sm_out _ _ I _ _ Hn) as (On & Dn & Wn).
  assert (ND := sm_nodup _ _ I q). unfold serials in ND. rewrite Hg, Hf, app_nil_r in ND. cbn [map] in ND.
  inversion ND as [|? ? Nin ND']; subst.
  assert (Hser : forall q' m, In m (serials (s_chan s' q')) -> In m (serials (s_chan s q')) /\ m <> n).
  { intros q' m H. destruct (Nat.eq_dec q' q) as [->|N].
    - rewrite Hq in H. unfold serials in H. cbn in H. rewrite app_nil_r in H. split.
      + apply in_or_app. left. rewrite Hf. now right.
      + intros ->. contradiction.
    - rewrite Hch in H by auto. split; auto. intros ->. eapply serial_other in H; eauto. }
  (* what the disk looks like afterwards *)
  assert (Key : forall d',
    (forall x, exists rest, d_hist d' x = map entry (s_cell s x) ++ rest) ->
    (forall m, m <> ser n -> d_ops d' m = d_ops d m) -> d_ops d' (ser n) = None ->
    (forall m, d_used d' m = d_used d m \/ (wt = true /\ m = 2 * n + 1)) ->
    (forall m, m <> 2 * n + 1 \/ wt = false -> d_used d' m = d_used d m) ->
    (forall m, d_done d m = true -> d_done d' m = true) ->
    (forall m, d_done d' m = true -> d_done d m = true \/ m = ser n) ->
    (wt = true -> forall m, d_used d' m = true \/ d_used d' m = d_used d m) ->
    (osync = true -> forall x, lastonly (fun e => d_done d' (ser (ce_by e)) = true) (s_cell s x)) ->
    sim s' d').
  { intros d' Hh Ho Hon Hdu Hdu' Hd1 Hd2 Hwu Hw.
    assert (Sn : forall m c i snap, d_ops d' m = Some (mk_dop c i (DFlush snap)) -> d_ops d m = Some (mk_dop c i (DFlush snap))).
    { intros m c i snap E. destruct (Nat.eq_dec m (ser n)) as [->|N]; [congruence|]. now rewrite Ho in E. }
    assert (Um : forall m, d_used d m = true -> d_used d' m = true).
    { intros m E. destruct (Nat.eq_dec m (2 * n + 1)) as [->|N]; [|rewrite Hdu'; auto].
      destruct wt eqn:Ew; [destruct (Hwu eq_refl (2 * n + 1)) as [H|H]; congruence|]. rewrite Hdu'; auto. }
    constructor; rewrite ?Hu, ?Hc, ?Hl; try apply I; auto.
    - intros x e He. apply (sm_time _ _ I) in He. lia.
    - intros m Hm. destruct (sm_used _ _ I m Hm) as (U1 & U2). split.
      + destruct (Hdu (ser m)) as [->|(W & E)]; auto. unfold ser in E. rewrite W in E. lia.
      + intros W. destruct (Hdu (2 * m + 1)) as [->|(_ & E)]; auto. assert (m = n) by lia. congruence.
    - intros m Hm. destruct (Hd2 m Hm) as [E| ->].
      + apply (sm_done _ _ I) in E. now apply Um.
      + apply Um, (sm_ops _ _ I _ _ Ek).
    - intros m o E. apply Um. destruct (Nat.eq_dec m (ser n)) as [->|N]; [congruence|].
      rewrite Ho in E by auto. apply (sm_ops _ _ I _ _ E).
    - intros m c i snap E m' Hm'. apply Sn in E. apply Hd1. eapply (sm_snap _ _ I); eauto.
    - intros q'. destruct (Nat.eq_dec q' q) as [->|N]; [|rewrite Hch by auto; apply I].
      rewrite Hq. unfold serials. cbn. now rewrite app_nil_r.
    - intros q' m Hm. apply Hser in Hm as (Hm & Nm). destruct (sm_out _ _ I _ _ Hm) as (U & D & W).
      split; auto. split.
      + destruct (d_done d' (ser m)) eqn:E; auto. apply Hd2 in E as [E|E]; [congruence|]. apply ser_inj in E. contradiction.
      + intros Hw'. rewrite Hdu'; auto. left. lia.
    - intros q' m i g0 E. destruct (Nat.eq_dec q' q) as [->|N]; [rewrite Hq in E; discriminate|].
      assert (Hm := serials_going _ _ _ _ E). apply Hser in Hm as (Hm & Nm).
      rewrite Hch in E by auto. destruct (sm_going _ _ I _ _ _ _ E) as (k0 & Ek0 & Hk0).
      exists k0. rewrite Ho by (intros E'; now apply ser_inj in E'). split; auto.
      destruct g0; auto. cbn in *. now rewrite Hc.
    - intros q' m i ok0 data0 H.
      assert (Hm := serials_fin _ _ _ _ _ H). apply Hser in Hm as (Hm & Nm).
      assert (H' : In (m, i, ok0, data0) (ch_finished (s_chan s q'))).
      { destruct (Nat.eq_dec q' q) as [->|N].
        - rewrite Hq in H. cbn in H. rewrite Hf. now right.
        - now rewrite Hch in H. }
      destruct (sm_fin _ _ I _ _ _ _ _ H') as (k0 & Ek0 & Hk0). exists k0.
      rewrite Ho by (intros E'; now apply ser_inj in E'). split; auto. unfold fin_ok in *. now rewrite Hc.
    - intros Hos q' m i off data0 pos cached E x Hx. destruct (Nat.eq_dec q' q) as [->|N]; [rewrite Hq in E; discriminate|].
      rewrite Hch in E by auto. eapply (sm_sync _ _ I); eauto. }
  (* the disk reports it *)
  set (d1 := match k with
             | DWrite _ _ _ => if ok then mk_disk (upd (d_ops d) (ser n) None) (d_used d) (d_hist d) (upd (d_done d) (ser n) true)
                               else finish (ser n) d
             | DRead _ _ _ => finish (ser n) d
             | DFlush snap => if ok then mk_disk (upd (d_ops d) (ser n) None) (d_used d) (fun x => trim snap (d_hist d x)) (d_done d)
                              else finish (ser n) d
             end).
  assert (E1 : dstep size d (DDone (ser n) ok) = Some (d1, [TDone (ser n) q id ok (map Some data)])).
  { cbn. rewrite Ek. unfold fin_ok in Hk. destruct ok.
    - destruct k as [off len got|off dat ap|snap].
      + destruct Hk as (-> & Hk). replace (in_range_all _ _ _ _) with true.
        * f_equal. f_equal. f_equal. f_equal. unfold read_data. clear - Hk.
          revert got Hk. induction data as [|v data IH]; intros got Hk; cbn; auto.
          rewrite (Hk 0) by (cbn; lia). cbn. f_equal. rewrite <- seq_shift, map_map. apply (IH (fun i => got (S i))).
          intros i Hi. apply (Hk (S i)). cbn. lia.
        * symmetry. apply forallb_forall. intros i Hr. apply in_seq in Hr. rewrite Hk by lia.
          destruct (nth_error data i) eqn:E; [now rewrite orb_true_r|]. apply nth_error_None in E. lia.
      + destruct Hk as (-> & Hk & _). replace (in_range_all _ _ _ _) with true; auto.
        symmetry. apply forallb_forall. intros i Hr. apply in_seq in Hr. rewrite Hk by lia. now rewrite orb_true_r.
      + destruct Hk as (-> & _). reflexivity.
    - subst data. destruct k; reflexivity. }
  assert (H1 : forall x, exists rest, d_hist d1 x = map entry (s_cell s x) ++ rest).
  { intros x. destruct (sm_hist _ _ I x) as (rest & E). subst d1. destruct k as [? ? ?|? ? ?|snap]; cbn; eauto.
    - destruct ok; cbn; eauto.
    - destruct ok; cbn; eauto. rewrite E. apply trim_prefix; [|apply I].
      unfold fin_ok in Hk. apply Hk. }
  assert (Ho1 : forall m, m <> ser n -> d_ops d1 m = d_ops d m).
  { intros m N. subst d1. destruct k, ok; cbn; now rewrite upd_neq'. }
  assert (Hn1 : d_ops d1 (ser n) = None).
  { subst d1. destruct k, ok; cbn; now rewrite upd_eq'. }
  assert (Hu1 : d_used d1 = d_used d) by (subst d1; destruct k, ok; reflexivity).
  assert (Hd1 : forall m, d_done d m = true -> d_done d1 m = true).
  { intros m E. subst d1. destruct k, ok; cbn; auto. unfold upd. destruct (m =? ser n); auto. }
  assert (Hd2 : forall m, d_done d1 m = true -> d_done d m = true \/ m = ser n).
  { intros m E. subst d1. destruct k, ok; cbn in E; auto. unfold upd in E. destruct (Nat.eqb_spec m (ser n)); auto. }
  assert (Hw1 : osync = true -> forall x, lastonly (fun e => d_done d1 (ser (ce_by e)) = true) (s_cell s x)).
  { intros Hw x.
    assert (Hold := sm_wt _ _ I Hw x).
    destruct ok; [|subst d1; destruct k; exact Hold].
    destruct k as [off len got|off dat ap|snap]; try exact Hold.
    destruct Hk as (_ & _ & Hk). specialize (Hk Hw x). subst d1. cbn.
    intros a e b E Hd. unfold upd in Hd. destruct (Nat.eqb_spec (ser (ce_by e)) (ser n)) as [Es|Ns].
    - apply ser_inj in Es. now apply (Hk a e b).
    - now apply (Hold a e b). }
  destruct wt eqn:Ew.
  - assert (Hu2 : d_used d (2 * n + 1) = false) by auto.
    destruct ok.
    + set (d2 := dissue (2 * n + 1) q id RFlush d1).
      assert (En : 2 * n + 1 <> ser n) by (unfold ser; rewrite Ew; lia).
      set (d3 := mk_disk (upd (d_ops d2) (2 * n + 1) None) (d_used d2) (fun x => trim (d_done d1) (d_hist d1 x)) (d_done d1)).
      exists [DDone (ser n) true; DIssue (2 * n + 1) q id RFlush; DDone (2 * n + 1) true], d3. split.
      * cbn [drun]. rewrite E1. cbn [dstep]. rewrite Hu1, Hu2. fold d2.
        cbn [d2 dissue d_ops]. rewrite upd_eq'. unfold ren. rewrite Ew. cbn. unfold ser. rewrite Ew. reflexivity.
      * apply Key; subst d3 d2; cbn [d_hist d_ops d_used d_done dissue].
        -- intros x. destruct (H1 x) as (rest & E). rewrite E. apply trim_prefix; [|apply I]. apply (Hw1 (wt_osync eq_refl) x).
        -- intros m N. unfold upd. destruct (Nat.eqb_spec m (2 * n + 1)) as [->|]; [|apply Ho1; auto].
           destruct (d_ops d (2 * n + 1)) eqn:E; auto. apply (sm_ops _ _ I) in E. congruence.
        -- unfold upd. replace (ser n =? 2 * n + 1) with false by (symmetry; apply Nat.eqb_neq; auto). exact Hn1.
        -- intros m. unfold upd. rewrite Hu1. destruct (Nat.eqb_spec m (2 * n + 1)); auto.
        -- intros m [N|N]; [|discriminate]. rewrite upd_neq' by auto. now rewrite Hu1.
        -- exact Hd1.
        -- exact Hd2.
        -- intros _ m. unfold upd. rewrite Hu1. destruct (m =? 2 * n + 1); auto.
        -- exact Hw1.
    + exists [DDone (ser n) false], d1. split.
      * cbn [drun]. rewrite E1. unfold ren. rewrite Ew. cbn. unfold ser. rewrite Ew. reflexivity.
      * apply Key; auto; try (intros; rewrite Hu1; auto).
  - exists [DDone (ser n) ok], d1. split.
    + cbn [drun]. rewrite E1. unfold ren. rewrite Ew. cbn. unfold ser. now rewrite Ew.
    + apply Key; auto; try (intros; rewrite Hu1; auto).
Qed.

Lemma ren_issue : forall n q id r, ren (TIssue n q id r) = [TIssue (ser n) q id r].
Proof. intros. unfold ren, ser. now destruct wt. Qed.

Lemma sim_issue : forall s d q n id g r, sim s d -> s_used s n = false -> ch_going (s_chan s q) = None ->
  (match g with
   | GRead off buf pos => r = RRead off (length buf) /\ pos = 0 /\ off + length buf <= size
   | GWrite off data pos cached => r = RWrite off data /\ pos = 0 /\ cached = 0 /\ off + length data <= size
   | GSync since => r = RFlush /\ since = s_now s
   end) ->
  exists es d', drun size d es = Some (d', flat_map ren [TIssue n q id r]) /\ sim (begins q n id g s) d'.
Proof.
  intros s d q n id g r I Hu Hg Hr. exists [DIssue (ser n) q id r], (dissue (ser n) q id r d). split.
  - cbn [drun dstep]. destruct (sm_used _ _ I _ Hu) as (-> & _). cbn [flat_map]. now rewrite ren_issue.
  - now apply sim_begin.
Qed.

Lemma sim_poll : forall l s d q s', sim s d -> ch_going (s_chan s q) = None -> ch_finished (s_chan s q) = l ->
  s_panic s' = false -> s_used s' = s_used s -> s_cell s' = s_cell s -> s_len s' = s_len s -> s_now s <= s_now s' ->
  (forall q', q' <> q -> s_chan s' q' = s_chan s q') -> s_chan s' q = idle ->
  exists es d', drun size d es = Some (d', flat_map ren (map (fun '(n, id, ok, data) => TDone n q id ok (map Some data)) l)) /\
    sim s' d'.
Proof.
  intros l. induction l as [|[[[n id] ok] data] l IH]; intros s d q s' I Hg Hf Hp Hu Hc Hl Hn Hch Hq.
  - exists [], d. split; auto. constructor; rewrite ?Hu, ?Hc, ?Hl; try apply I; auto.
    + intros x e He. apply (sm_time _ _ I) in He. lia.
    + intros q'. destruct (Nat.eq_dec q' q) as [->|N]; [rewrite Hq; constructor|rewrite Hch by auto; apply I].
    + intros q' m. destruct (Nat.eq_dec q' q) as [->|N]; [rewrite Hq; intros []|rewrite Hch by auto; apply I].
    + intros q' m i g E. destruct (Nat.eq_dec q' q) as [->|N]; [rewrite Hq in E; discriminate|].
      rewrite Hch in E by auto. destruct (sm_going _ _ I _ _ _ _ E) as (k & Ek & Hk). exists k. split; auto.
      destruct g; auto. cbn in *. now rewrite Hc.
    + intros q' m i ok data H. destruct (Nat.eq_dec q' q) as [->|N]; [rewrite Hq in H; contradiction|].
      rewrite Hch in H by auto. destruct (sm_fin _ _ I _ _ _ _ _ H) as (k & Ek & Hk). exists k. split; auto.
      unfold fin_ok in *. now rewrite Hc.
    + intros Ho q' m i off data pos cached E. destruct (Nat.eq_dec q' q) as [->|N]; [rewrite Hq in E; discriminate|].
      rewrite Hch in E by auto. eapply (sm_sync _ _ I); eauto.
  - set (s1 := mk_sdev (upd (s_chan s) q (mk_chan None l)) (s_used s) (s_cell s) (s_len s) (s_now s) (s_panic s)).
    destruct (sim_report s d s1 q n id ok data l) as (es1 & d1 & R1 & I1); auto.
    + apply I.
    + intros q' N. cbn. now rewrite upd_neq'.
    + cbn. now rewrite upd_eq'.
    + destruct (IH s1 d1 q s') as (es2 & d2 & R2 & I2); auto.
      * cbn. now rewrite upd_eq'.
      * cbn. now rewrite upd_eq'.
      * intros q' N. cbn. rewrite upd_neq' by auto. now apply Hch.
      * exists (es1 ++ es2), d2. split; auto. cbn [map flat_map]. eapply drun_app; eauto.
Qed.

Lemma sim_crash : forall s d sv, sim s d ->
  exists sv' d', (forall x, sv' x < length (s_cell s x)) /\
    drun size d [DCrash sv'] = Some (d', flat_map ren [TCrash]) /\
    sim (mk_sdev (fun _ => idle) (s_used s) (fun x => crashed_cells (s_cell s x) (sv x)) (s_len s) (S (s_now s)) false) d'.
Proof.
  intros s d sv I.
  set (sv' := fun x => if sv x <? length (s_cell s x) then sv x else 0).
  exists sv', (mk_disk (fun _ => None) (d_used d) (fun x => crashed (d_hist d x) (sv' x)) (d_done d)). split; [|split].
  - intros x. unfold sv'. destruct (Nat.ltb_spec (sv x) (length (s_cell s x))); auto.
    assert (N := sm_cell _ _ I x). destruct (s_cell s x); [congruence|cbn; lia].
  - cbn. unfold ren. now destruct wt.
  - assert (Hc : forall x, exists v, crashed_cells (s_cell s x) (sv x) = [mk_cell 0 0 v] /\ crashed (d_hist d x) (sv' x) = [(0, v)]).
    { intros x. destruct (sm_hist _ _ I x) as (rest & E). rewrite E. unfold crashed_cells, crashed, sv'.
      destruct (Nat.ltb_spec (sv x) (length (s_cell s x))) as [Hl|Hl].
      - destruct (nth_error (s_cell s x) (sv x)) as [e|] eqn:En. 2:{ apply nth_error_None in En. lia. }
        rewrite nth_error_app1 by (rewrite map_length; lia). rewrite nth_error_map, En. cbn. eauto.
      - replace (nth_error (s_cell s x) (sv x)) with (@None (cell V)) by (symmetry; now apply nth_error_None).
        assert (N := sm_cell _ _ I x). destruct (s_cell s x) as [|e l]; [congruence|]. cbn. eauto. }
    assert (Hin : forall x e, In e (crashed_cells (s_cell s x) (sv x)) -> ce_by e = 0 /\ ce_time e = 0).
    { intros x e He. destruct (Hc x) as (v & E & _). rewrite E in He. destruct He as [<-|[]]. auto. }
    constructor; cbn [s_panic s_used s_cell s_chan s_len s_now d_hist d_ops d_used d_done]; try apply I; auto.
    + intros x. destruct (Hc x) as (v & -> & ->). exists []. cbn. unfold entry, ser. cbn. now destruct wt.
    + intros x. destruct (Hc x) as (v & -> & _). discriminate.
    + intros x e He. apply Hin in He as [_ ->]. lia.
    + intros x e He. apply Hin in He as [-> _]. apply (sm_zero _ _ I).
    + discriminate.
    + discriminate.
    + intros q. constructor.
    + intros q n [].
    + discriminate.
    + intros q n id ok data [].
    + discriminate.
    + intros _ x. destruct (Hc x) as (v & -> & _). apply lastonly_single.
Qed.

Lemma hist_cur : forall s d x, sim s d -> cur (d_hist d x) = cur_cell (s_cell s x).
Proof.
  intros s d x I. destruct (sm_hist _ _ I x) as (rest & ->). assert (N := sm_cell _ _ I x).
  destruct (s_cell s x); [congruence|]. reflexivity.
Qed.

Lemma nth_skip : forall {A} n (l : list A) i, nth_error (skipn n l) i = nth_error l (n + i).
Proof. intros A n. induction n as [|n IH]; intros [|x l] i; cbn; auto. now destruct i. Qed.

Lemma fill_nth : forall (buf l : list V) pos i, pos + length l <= length buf ->
  nth_error (fill buf pos l) i =
  if (pos <=? i) && (i <? pos + length l) then nth_error l (i - pos) else nth_error buf i.
Proof.
  intros buf l pos i H. unfold fill. destruct (Nat.ltb_spec i pos).
  - rewrite nth_error_app1 by (rewrite firstn_length; lia). replace (pos <=? i) with false by lia. cbn.
    revert pos buf H H0. induction i as [|i IH]; intros [|pos] [|b buf] H H0; cbn in *; try lia; auto. apply IH; lia.
  - rewrite nth_error_app2 by (rewrite firstn_length; lia). rewrite firstn_length, Nat.min_l by lia.
    replace (pos <=? i) with true by lia. cbn [andb]. destruct (Nat.ltb_spec i (pos + length l)) as [H1|H1].
    + now rewrite nth_error_app1 by lia.
    + rewrite nth_error_app2 by lia. rewrite nth_skip. f_equal. lia.
Qed.

Lemma fill_length : forall (buf l : list V) pos, pos + length l <= length buf -> length (fill buf pos l) = length buf.
Proof. intros. unfold fill. rewrite !app_length, firstn_length, skipn_length. lia. Qed.

(** The call in progress ends with an error, or is repeated. *)
Lemma sim_error : forall s d q n id g, sim s d -> ch_going (s_chan s q) = Some (n, id, g) ->
  sim (ends q n id false [] s) d.
Proof.
  intros s d q n id g I Hg. destruct (sm_going _ _ I _ _ _ _ Hg) as (k & Ek & Hk).
  apply (sim_progress s d _ d q n id g k); auto.
  - apply I.
  - intros q' N. cbn. now rewrite upd_neq'.
  - now apply evolve_refl.
  - apply I.
  - apply I.
  - right. exists false, []. cbn. now rewrite upd_eq'.
Qed.

Lemma sim_again : forall s d q n id g, sim s d -> ch_going (s_chan s q) = Some (n, id, g) ->
  sim (set_chan q (s_chan s q) s) d.
Proof.
  intros s d q n id g I Hg. destruct (sm_going _ _ I _ _ _ _ Hg) as (k & Ek & Hk).
  apply (sim_progress s d _ d q n id g k); auto.
  - apply I.
  - intros q' N. cbn. now rewrite upd_neq'.
  - now apply evolve_refl.
  - apply I.
  - apply I.
  - left. exists g. cbn. rewrite upd_eq'. split; [|split].
    + destruct (s_chan s q). cbn in *. now subst.
    + destruct g; auto.
    + intros Ho off data pos cached ->. eapply (sm_sync _ _ I); eauto.
Qed.

Lemma sim_copy : forall s d q k s' t, sim s d -> sstep us per readonly osync s (SCopy q k) = Some (s', t) ->
  exists es d', drun size d es = Some (d', flat_map ren t) /\ sim s' d'.
Proof.
  intros s d q k s' t I H. unfold sstep in H. rewrite (sm_panic _ _ I) in H.
  destruct (ch_going (s_chan s q)) as [[[n id] [off buf pos|off data pos cached|since]]|] eqn:Hg; try discriminate.
  destruct (readonly || (length data <? pos + cached + k)) eqn:Er; [discriminate|]. injection H as <- <-.
  apply orb_false_iff in Er as [_ Er].
  destruct (sm_going _ _ I _ _ _ _ Hg) as (kd & Ek & Hr & Hp & ap & -> & Ha).
  destruct (apply_run q id off data (ser n) k (pos + cached) d ap) as (d' & ap' & R & O & M & U & Dn & A & Hh); auto; try lia.
  { intros i Hi. rewrite Ha. lia. }
  exists (map (DApply (ser n)) (seq (pos + cached) k)), d'. split; [exact R|].
  set (piece := firstn k (skipn (pos + cached) data)) in *.
  assert (Lp : length piece = k) by (subst piece; rewrite firstn_length, skipn_length; lia).
  eapply (sim_progress s d _ d' q n id _ (DWrite off data ap')); eauto.
  - apply I.
  - cbn [s_len set_chan set_cells]. lia.
  - intros q' N. cbn. now rewrite upd_neq'.
  - intros x. cbn [s_cell set_chan set_cells s_now]. rewrite store_at.
    destruct (nth_error piece (x - (off + pos + cached))) as [v|] eqn:Ev.
    + destruct (off + pos + cached <=? x).
      * exists [mk_cell (s_now s) n v], []. split; [now rewrite app_nil_r|]. repeat constructor.
      * exists [], []. split; [now rewrite app_nil_r|auto].
    + exists [], []. split; [now rewrite app_nil_r|auto].
  - intros x. cbn [s_cell set_chan set_cells]. rewrite store_at. pose proof (sm_cell _ _ I x).
    destruct (nth_error piece _); auto. destruct (_ <=? x); auto. discriminate.
  - intros x. cbn [s_cell set_chan set_cells]. rewrite store_at, Hh, Nat.add_assoc.
    destruct (sm_hist _ _ I x) as (rest & ->). exists rest.
    destruct (nth_error piece _); auto. destruct (_ <=? x); auto.
  - discriminate.
  - left. eexists. cbn [s_chan set_chan]. rewrite upd_eq'. split; [reflexivity|]. split.
    + cbn [going_ok]. split; [exact Hr|]. split; [lia|]. exists ap'. split; auto. intros i. rewrite A, Ha. lia.
    + intros Ho off' data' pos' cached' E x Hx. injection E as <- <- <- <-.
      cbn [s_cell set_chan set_cells]. rewrite store_at.
      assert (L := sm_sync _ _ I Ho _ _ _ _ _ _ _ Hg x ltac:(lia)).
      destruct (nth_error piece _) eqn:Ev; auto. destruct (Nat.leb_spec (off + pos + cached) x); auto.
      assert (x - (off + pos + cached) < length piece) by (apply nth_error_Some; congruence). lia.
Qed.

Lemma sim_return_read : forall s d q n id off buf pos o s' t, sim s d ->
  ch_going (s_chan s q) = Some (n, id, GRead off buf pos) ->
  sstep us per readonly osync s (SReturn q o) = Some (s', t) ->
  exists es d', drun size d es = Some (d', flat_map ren t) /\ sim s' d'.
Proof.
  intros s d q n id off buf pos o s' t I Hg H. unfold sstep in H. rewrite (sm_panic _ _ I), Hg in H.
  destruct o as [k| |].
  2:{ injection H as <- <-. exists [], d. split; auto. eapply sim_again; eauto. }
  2:{ injection H as <- <-. exists [], d. split; auto. eapply sim_error; eauto. }
  destruct k as [|k]. { injection H as <- <-. exists [], d. split; auto. eapply sim_error; eauto. }
  remember (S k) as k1 eqn:Ek1.
  destruct ((length buf <? pos + k1) || (s_len s <? off + pos + k1)) eqn:Er; [discriminate|].
  apply orb_false_iff in Er as [Er _].
  destruct (fetch (s_cell s) (off + pos) k1) as [l|] eqn:Ef; [|discriminate].
  apply fetch_at in Ef as (Ll & Nl).
  destruct (sm_going _ _ I _ _ _ _ Hg) as (kd & Ek & Hr & Hp & got & -> & Ha).
  destruct (sample_run q id off (length buf) (ser n) k1 pos d got) as (d' & got' & R & O & M & U & Hh & Dn & G); auto; try lia.
  assert (Hgot : forall i, i < pos + k1 -> got' i = nth_error (fill buf pos l) i).
  { intros i Hi. rewrite G, fill_nth by lia. rewrite Ll. destruct ((pos <=? i) && (i <? pos + k1)) eqn:E.
    - rewrite Nl by lia. rewrite (hist_cur s d) by auto. f_equal. f_equal. lia.
    - apply Ha. lia. }
  assert (Lf : length (fill buf pos l) = length buf) by (apply fill_length; lia).
  assert (Base : forall s1, s_panic s1 = false -> s_used s1 = s_used s -> s_now s < s_now s1 -> s_len s1 = s_len s ->
     s_cell s1 = s_cell s -> (forall q', q' <> q -> s_chan s1 q' = s_chan s q') ->
     ((exists g', s_chan s1 q = mk_chan (Some (n, id, g')) (ch_finished (s_chan s q)) /\ going_ok s1 g' (DRead off (length buf) got') /\
         (osync = true -> forall off data pos cached, g' = GWrite off data pos cached ->
          forall x, ~ (off + pos <= x < off + pos + cached) -> lastonly (fun e => ce_by e = n) (s_cell s1 x))) \/
      (exists ok data, s_chan s1 q = mk_chan None (ch_finished (s_chan s q) ++ [(n, id, ok, data)]) /\ fin_ok s1 n ok data (DRead off (length buf) got'))) ->
     sim s1 d').
  { intros s1 B1 B2 B3 B4 B5 B6 B7. eapply (sim_progress s d s1 d'); eauto.
    - lia.
    - now apply evolve_refl.
    - rewrite B5. apply I.
    - rewrite Hh, B5. apply I.
    - discriminate. }
  assert (Pn := sm_panic _ _ I).
  destruct (pos + k1 =? length buf) eqn:Ee; injection H as <- <-;
    exists (map (DSample (ser n)) (seq pos k1)), d'; (split; [exact R|]); apply Base; auto;
    try (intros q' N; cbn; now rewrite upd_neq').
  - right. exists true, (fill buf pos l). cbn [ends set_chan s_chan]. rewrite upd_eq'. split; auto.
    cbn [fin_ok]. split; [now rewrite Lf|]. intros i Hi. apply Hgot. lia.
  - left. eexists. cbn [set_chan s_chan]. rewrite upd_eq'. split; [reflexivity|]. split; [|discriminate].
    cbn [going_ok]. rewrite Lf. split; [lia|]. split; [lia|]. exists got'. split; auto.
Qed.

Lemma sim_return_write : forall s d q n id off data pos cached o s' t, sim s d ->
  ch_going (s_chan s q) = Some (n, id, GWrite off data pos cached) ->
  sstep us per readonly osync s (SReturn q o) = Some (s', t) ->
  exists es d', drun size d es = Some (d', flat_map ren t) /\ sim s' d'.
Proof.
  intros s d q n id off data pos cached o s' t I Hg H. unfold sstep in H. rewrite (sm_panic _ _ I), Hg in H.
  destruct o as [k| |].
  2:{ destruct (cached =? 0); [|discriminate]. injection H as <- <-. exists [], d. split; auto. eapply sim_again; eauto. }
  2:{ injection H as <- <-. exists [], d. split; auto. eapply sim_error; eauto. }
  destruct k as [|k].
  { destruct (cached =? 0); [|discriminate]. injection H as <- <-. exists [], d. split; auto. eapply sim_error; eauto. }
  remember (S k) as k1 eqn:Ek1.
  destruct (Nat.eqb_spec k1 cached) as [->|]; [cbn [negb] in H|discriminate].
  set (f := fun x => if osync && (off + pos <=? x) && (x <? off + pos + cached)
                     then settle (fun e => ce_by e =? n) (s_cell s x) else s_cell s x) in *.
  destruct (sm_going _ _ I _ _ _ _ Hg) as (kd & Ek & Hr & Hp & ap & -> & Ha).
  assert (Hf : forall x, exists r, s_cell s x = f x ++ r).
  { intros x. unfold f. destruct (_ && _ && _); [apply settle_prefix|]. exists []. now rewrite app_nil_r. }
  assert (Hfn : forall x, f x <> []).
  { intros x. unfold f. pose proof (sm_cell _ _ I x). destruct (_ && _ && _); auto. now apply settle_nonempty. }
  assert (Hl : osync = true -> forall x, lastonly (fun e => ce_by e = n) (f x)).
  { intros Ho x. unfold f. rewrite Ho. cbn [andb].
    destruct ((off + pos <=? x) && (x <? off + pos + cached)) eqn:E.
    - apply settle_last. intros e _ ->. apply Nat.eqb_refl.
    - eapply (sm_sync _ _ I); eauto. lia. }
  assert (Base : forall s1, s_panic s1 = false -> s_used s1 = s_used s -> s_now s < s_now s1 -> s_len s1 = s_len s ->
     s_cell s1 = f -> (forall q', q' <> q -> s_chan s1 q' = s_chan s q') ->
     ((exists g', s_chan s1 q = mk_chan (Some (n, id, g')) (ch_finished (s_chan s q)) /\ going_ok s1 g' (DWrite off data ap) /\
         (osync = true -> forall off data pos cached, g' = GWrite off data pos cached ->
          forall x, ~ (off + pos <= x < off + pos + cached) -> lastonly (fun e => ce_by e = n) (s_cell s1 x))) \/
      (exists ok dat, s_chan s1 q = mk_chan None (ch_finished (s_chan s q) ++ [(n, id, ok, dat)]) /\ fin_ok s1 n ok dat (DWrite off data ap))) ->
     sim s1 d).
  { intros s1 B1 B2 B3 B4 B5 B6 B7. eapply (sim_progress s d s1 d); eauto.
    - lia.
    - intros x. destruct (Hf x) as (r & E). exists [], r. rewrite B5. split; auto.
    - now rewrite B5.
    - intros x. rewrite B5. destruct (sm_hist _ _ I x) as (rest & ->). destruct (Hf x) as (r & ->).
      exists (map entry r ++ rest). now rewrite map_app, app_assoc. }
  assert (Pn := sm_panic _ _ I).
  destruct (pos + cached =? length data) eqn:Ee; injection H as <- <-; exists [], d; (split; [reflexivity|]); apply Base; auto;
    try (intros q' N; cbn; now rewrite upd_neq').
  - right. exists true, []. cbn [ends set_chan s_chan set_cells]. rewrite upd_eq'. split; auto.
    cbn [fin_ok]. split; auto. split. { intros i Hi. rewrite Ha. lia. } exact Hl.
  - left. eexists. cbn [set_chan s_chan set_cells]. rewrite upd_eq'. split; [reflexivity|]. split.
    + cbn [going_ok]. split; [lia|]. split; [lia|]. exists ap. split; auto. intros i. rewrite Ha. f_equal. lia.
    + intros Ho ? ? ? ? E x _. now apply Hl.
Qed.

Lemma sim_return_sync : forall s d q n id since o s' t, sim s d ->
  ch_going (s_chan s q) = Some (n, id, GSync since) ->
  sstep us per readonly osync s (SReturn q o) = Some (s', t) ->
  exists es d', drun size d es = Some (d', flat_map ren t) /\ sim s' d'.
Proof.
  intros s d q n id since o s' t I Hg H. unfold sstep in H. rewrite (sm_panic _ _ I), Hg in H.
  destruct o as [[|k]| |].
  2:{ discriminate. }
  2:{ injection H as <- <-. exists [], d. split; auto. eapply sim_again; eauto. }
  2:{ injection H as <- <-. exists [], d. split; auto. eapply sim_error; eauto. }
  injection H as <- <-. exists [], d. split; auto.
  destruct (sm_going _ _ I _ _ _ _ Hg) as (kd & Ek & snap & -> & Hs).
  eapply (sim_progress s d _ d q n id); eauto.
  - apply I.
  - intros q' N. cbn. now rewrite upd_neq'.
  - intros x. destruct (settle_prefix (fun e => ce_time e <? since) (s_cell s x)) as (r & E).
    exists [], r. split; auto.
  - intros x. cbn [ends set_chan set_cells s_cell]. apply settle_nonempty. apply I.
  - intros x. cbn [ends set_chan set_cells s_cell]. destruct (sm_hist _ _ I x) as (rest & ->).
    destruct (settle_prefix (fun e => ce_time e <? since) (s_cell s x)) as (r & E).
    exists (map entry r ++ rest). rewrite E at 1. now rewrite map_app, app_assoc.
  - right. exists true, []. cbn [ends set_chan set_cells s_chan]. rewrite upd_eq'. split; auto.
    cbn [fin_ok]. split; auto. intros x. cbn [s_cell set_chan set_cells]. apply settle_last.
    intros e He Hsn. apply Nat.ltb_lt. eauto.
Qed.

Lemma sim_step : forall s d e s' t, sim s d -> call_in_range per nsec e -> sstep us per readonly osync s e = Some (s', t) ->
  exists es d', drun size d es = Some (d', flat_map ren t) /\ sim s' d'.
Proof.
  intros s d e s' t I C H. destruct e as [n q id soff scnt buf|n q id soff scnt buf|n q id|q k|q o|q|sv].
  - unfold sstep in H. rewrite (sm_panic _ _ I) in H. destruct C as (C1 & C2).
    destruct (s_used s n || is_some (ch_going (s_chan s q))) eqn:E; [discriminate|].
    apply orb_false_iff in E as (E1 & E2). replace (length buf <? scnt * per) with false in H by (symmetry; apply Nat.ltb_ge; exact C2).
    injection H as <- <-. rewrite unit_offset_ok by lia.
    apply (sim_issue s d q n id (GRead (soff * per) (firstn (scnt * per) buf) 0)); auto.
    + destruct (ch_going (s_chan s q)); [discriminate|auto].
    + rewrite firstn_length, Nat.min_l by exact C2. split; auto. split; auto. rewrite <- Nat.mul_add_distr_r. now apply Nat.mul_le_mono_r.
  - unfold sstep in H. rewrite (sm_panic _ _ I) in H. destruct C as (C1 & C2).
    destruct (s_used s n || is_some (ch_going (s_chan s q))) eqn:E; [discriminate|].
    apply orb_false_iff in E as (E1 & E2). replace (length buf <? scnt * per) with false in H by (symmetry; apply Nat.ltb_ge; exact C2).
    injection H as <- <-. rewrite unit_offset_ok by lia.
    apply (sim_issue s d q n id (GWrite (soff * per) (firstn (scnt * per) buf) 0 0)); auto.
    + destruct (ch_going (s_chan s q)); [discriminate|auto].
    + rewrite firstn_length, Nat.min_l by exact C2. repeat (split; auto). rewrite <- Nat.mul_add_distr_r. now apply Nat.mul_le_mono_r.
  - unfold sstep in H. rewrite (sm_panic _ _ I) in H.
    destruct (s_used s n || is_some (ch_going (s_chan s q))) eqn:E; [discriminate|].
    apply orb_false_iff in E as (E1 & E2). injection H as <- <-.
    apply (sim_issue s d q n id (GSync (s_now s))); auto. destruct (ch_going (s_chan s q)); [discriminate|auto].
  - eapply sim_copy; eauto.
  - destruct (ch_going (s_chan s q)) as [[[n id] [off buf pos|off data pos cached|since]]|] eqn:Hg.
    + eapply sim_return_read; eauto.
    + eapply sim_return_write; eauto.
    + eapply sim_return_sync; eauto.
    + unfold sstep in H. rewrite (sm_panic _ _ I), Hg in H. discriminate.
  - unfold sstep in H. rewrite (sm_panic _ _ I) in H.
    destruct (is_some (ch_going (s_chan s q))) eqn:E; [discriminate|]. injection H as <- <-.
    eapply sim_poll; eauto; cbn [set_chan s_panic s_used s_cell s_len s_now s_chan]; auto.
    + destruct (ch_going (s_chan s q)); [discriminate|auto].
    + apply I.
    + intros q' N. now rewrite upd_neq'.
    + now rewrite upd_eq'.
  - unfold sstep in H. rewrite (sm_panic _ _ I) in H. injection H as <- <-. destruct (sim_crash s d sv I) as (sv' & d' & _ & R & I'). eauto.
Qed.

Lemma sim_run : forall es s d s' tr, sim s d -> Forall (call_in_range per nsec) es -> srun us per readonly osync s es = Some (s', tr) ->
  exists es' d', drun size d es' = Some (d', flat_map ren tr) /\ sim s' d'.
Proof.
  intros es. induction es as [|e es IH]; intros s d s' tr I C H; cbn [srun] in H.
  - injection H as <- <-. exists [], d. auto.
  - inversion C as [|? ? C1 C2]; subst. destruct (sstep us per readonly osync s e) as [[s1 t1]|] eqn:E; [|discriminate].
    destruct (srun us per readonly osync s1 es) as [[s2 t2]|] eqn:E2; [|discriminate]. injection H as <- <-.
    destruct (sim_step _ _ _ _ _ I C1 E) as (es1 & d1 & R1 & I1).
    destruct (IH _ _ _ _ I1 C2 E2) as (es2 & d2 & R2 & I2).
    exists (es1 ++ es2), d2. split; auto. rewrite flat_map_app. eapply drun_app; eauto.
Qed.

Lemma sim_init : forall len contents, size <= len -> sim (new_sdev len contents) (new_disk contents).
Proof.
  intros len contents H. constructor; cbn; auto; try discriminate.
  - intros x. exists []. cbn. unfold entry, ser. cbn. now destruct wt.
  - intros x e [<-|[]]. cbn. lia.
  - intros x e [<-|[]]. reflexivity.
  - intros n Hn. unfold ser. destruct wt; split; try discriminate; intros; destruct n; try discriminate; cbn; auto; lia.
  - intros q. constructor.
  - intros q n [].
  - intros q n id ok data [].
  - intros _ x. apply lastonly_single.
Qed.

End S.
