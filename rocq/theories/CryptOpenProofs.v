(** Proofs for C82: the open encrypting device over any disk. *)
From Coq Require Import List Arith NArith Bool Lia.
Import ListNotations.
From Verif Require Import Base BaseFacts DiskSpec TraceSpec TraceFacts CryptModel CryptSpec CryptProofs LayerSpec LayerIds
  CryptOpenModel CryptOpenSpec.

Section Open.
Context {V : Type}.
Variable enc dec : nat -> V -> V.
Variable size : nat.
Hypothesis dec_enc : forall x v, dec x (enc x v) = v.
Notation kstep := (@kstep V enc dec).
Notation krun := (@krun V enc dec).
Notation dsim := (@dsim V dec).

(** A request as the channel's caller knows it, and as the base disk has it. *)
Definition fits (o : option kop) (d : option (dop V)) : Prop :=
  match o, d with
  | None, None => True
  | Some (mk_kop q id w), Some (mk_dop q' id' k) =>
    q' = q /\ id' = id /\
    match w, k with
    | KoRead off len _, DRead off' len' _ => off' = off /\ len' = len
    | KoWrite _, DWrite _ _ _ => True
    | KoFlush, DFlush _ => True
    | _, _ => False
    end
  | _, _ => False
  end.

(** The state of the channels. *)
Record kok (s : kdev V) : Prop := {
  ko_read : forall n q id off len b, k_ops s n = Some (mk_kop q id (KoRead off len b)) ->
    k_reads s q id = Some (mk_creq off len b) /\ len <= length (k_mem s b);
  ko_entry : forall q id r, k_reads s q id = Some r ->
    exists n, k_ops s n = Some (mk_kop q id (KoRead (r_off r) (r_cnt r) (r_buf r)));
  ko_ids : forall n n' q id w w', k_ops s n = Some (mk_kop q id w) -> k_ops s n' = Some (mk_kop q id w') -> n = n';
  ko_bufs : forall n n' q id w q' id' w' b, k_ops s n = Some (mk_kop q id w) -> k_ops s n' = Some (mk_kop q' id' w') ->
    buffer_in w = Some b -> buffer_in w' = Some b -> n = n';
  ko_fine : k_panic s = false
}.

Lemma kok_init : kok new_kdev.
Proof. constructor; cbn; try discriminate; auto. Qed.

(** *** Steps of the base that nobody sees *)
Lemma quiet_step b p e b' : dsim b p -> dstep size b e = Some (b', []) ->
  exists p', dstep size p e = Some (p', []) /\ dsim b' p' /\ forall n o, fits o (d_ops b n) -> fits o (d_ops b' n).
Proof.
  intros S E. destruct (dsim_step enc dec size dec_enc _ _ _ _ _ S E) as (p' & Ep & S').
  { intros n c id r ->. cbn in E. destruct (d_used b n); discriminate E. }
  exists p'. split; [exact Ep|]. split; [exact S'|]. intros n o F.
  unfold dstep in E. destruct e as [n0 q0 id0 r|n0 j|n0 j|n0 ok|pk].
  - destruct (d_used b n0); discriminate E.
  - destruct (d_ops b n0) as [[c0 i0 [ | off dd ap|]]|] eqn:E0; try discriminate E. destruct (nth_error dd j); [|discriminate E].
    destruct (_ && _); [|discriminate E]. injection E as <-. cbn [d_ops]. unfold upd. destruct (Nat.eqb_spec n n0) as [->|]; [|auto].
    rewrite E0 in F. exact F.
  - destruct (d_ops b n0) as [[c0 i0 [off len got| |]]|] eqn:E0; try discriminate E.
    destruct (_ && _); [|discriminate E]. injection E as <-. cbn [set_kind d_ops d_ch d_id]. unfold upd. destruct (Nat.eqb_spec n n0) as [->|]; [|auto].
    rewrite E0 in F. exact F.
  - destruct (d_ops b n0) as [[c0 i0 k0]|]; [|discriminate E]. destruct ok; [|discriminate E].
    destruct k0; try discriminate E; destruct (in_range_all _ _ _ _); discriminate E.
  - discriminate E.
Qed.

Lemma quiet_run : forall es b p b', dsim b p -> drun size b es = Some (b', []) ->
  exists p', drun size p es = Some (p', []) /\ dsim b' p' /\ forall n o, fits o (d_ops b n) -> fits o (d_ops b' n).
Proof.
  induction es as [|e es IH]; intros b p b' S R; cbn [drun] in *.
  - injection R as <-. eauto.
  - destruct (dstep size b e) as [[b1 t1]|] eqn:E; [|discriminate R].
    destruct (drun size b1 es) as [[b2 t2]|] eqn:E2; [|discriminate R]. injection R as <- Ht.
    apply app_eq_nil in Ht as [-> ->].
    destruct (quiet_step _ _ _ _ S E) as (p1 & Ep & S1 & F1). destruct (IH _ _ _ S1 E2) as (p2 & Ep2 & S2 & F2).
    exists p2. rewrite Ep, Ep2. split; [reflexivity|]. auto.
Qed.

Definition inv (s : kdev V) (d p : disk V) : Prop :=
  kok s /\ dsim d p /\ (forall n, fits (k_ops s n) (d_ops d n)).

(** *** Issuing *)
Lemma kok_issue s n q id w reads mem :
  kok s -> k_ops s n = None -> (forall m w', k_ops s m <> Some (mk_kop q id w')) ->
  (forall b, buffer_in w = Some b -> free_buffer s b) ->
  reads = (match w with KoRead off len b => upd2 (k_reads s) q id (Some (mk_creq off len b)) | _ => k_reads s end) ->
  (forall b, buffer_in w <> Some b -> mem b = k_mem s b) ->
  (match w with KoRead off len b => len <= length (mem b) | _ => True end) ->
  kok (mk_kdev reads mem (upd (k_ops s) n (Some (mk_kop q id w))) (k_panic s)).
Proof.
  intros K Hn Hi Hb -> Hm Hl. constructor; cbn [k_reads k_mem k_ops k_panic].
  - intros m q' id' off len b E. unfold upd in E. destruct (Nat.eqb_spec m n) as [->|Hne].
    + injection E as <- <- ->. split; [apply upd2_eq|exact Hl].
    + destruct (ko_read _ K _ _ _ _ _ _ E) as [A B]. split.
      * destruct w; auto. rewrite upd2_neq; auto. intros X. injection X as -> ->. exact (Hi _ _ E).
      * rewrite Hm; auto. intros X. exact (Hb _ X _ _ E eq_refl).
  - intros q' id' r E. destruct w as [off len b|b|].
    + destruct (pair_dec (q', id') (q, id)) as [X|X].
      * injection X as -> ->. rewrite upd2_eq in E. injection E as <-. exists n. rewrite upd_eq. reflexivity.
      * rewrite upd2_neq in E by auto. destruct (ko_entry _ K _ _ _ E) as (m & Em). exists m. rewrite upd_neq; auto. congruence.
    + destruct (ko_entry _ K _ _ _ E) as (m & Em). exists m. rewrite upd_neq; auto. congruence.
    + destruct (ko_entry _ K _ _ _ E) as (m & Em). exists m. rewrite upd_neq; auto. congruence.
  - intros m m' q' id' w1 w2 E1 E2. unfold upd in E1, E2.
    destruct (Nat.eqb_spec m n) as [->|], (Nat.eqb_spec m' n) as [->|]; auto.
    + injection E1 as <- <- _. now apply Hi in E2.
    + injection E2 as <- <- _. now apply Hi in E1.
    + eapply (ko_ids _ K); eauto.
  - intros m m' q1 id1 w1 q2 id2 w2 b E1 E2 B1 B2. unfold upd in E1, E2.
    destruct (Nat.eqb_spec m n) as [->|], (Nat.eqb_spec m' n) as [->|]; auto.
    + injection E1 as _ _ <-. now apply (Hb _ B1) in E2.
    + injection E2 as _ _ <-. now apply (Hb _ B2) in E1.
    + eapply (ko_bufs _ K); eauto.
  - apply K.
Qed.

(** *** Completing *)
Lemma kok_done s n q id w reads mem :
  kok s -> k_ops s n = Some (mk_kop q id w) ->
  (forall q' id', (q', id') <> (q, id) -> reads q' id' = k_reads s q' id') -> reads q id = None ->
  (forall b, buffer_in w <> Some b -> mem b = k_mem s b) ->
  kok (mk_kdev reads mem (upd (k_ops s) n None) (k_panic s)).
Proof.
  intros K Hn Hr H0 Hm. constructor; cbn [k_reads k_mem k_ops k_panic].
  - intros m q' id' off len b E. unfold upd in E. destruct (Nat.eqb_spec m n) as [->|Hne]; [discriminate E|].
    destruct (ko_read _ K _ _ _ _ _ _ E) as [A B]. rewrite Hr.
    2:{ intros X. injection X as -> ->. apply Hne. eapply (ko_ids _ K); eauto. }
    split; auto. rewrite Hm; auto. intros X. apply Hne. eapply (ko_bufs _ K); eauto. reflexivity.
  - intros q' id' r E. destruct (pair_dec (q', id') (q, id)) as [X|X].
    + injection X as -> ->. congruence.
    + rewrite Hr in E by auto. destruct (ko_entry _ K _ _ _ E) as (m & Em). exists m. rewrite upd_neq; auto. congruence.
  - intros m m' q' id' w1 w2 E1 E2. unfold upd in E1, E2.
    destruct (Nat.eqb_spec m n) as [->|], (Nat.eqb_spec m' n) as [->|]; try discriminate. eapply (ko_ids _ K); eauto.
  - intros m m' q1 id1 w1 q2 id2 w2 b E1 E2 B1 B2. unfold upd in E1, E2.
    destruct (Nat.eqb_spec m n) as [->|], (Nat.eqb_spec m' n) as [->|]; try discriminate. eapply (ko_bufs _ K); eauto.
  - apply K.
Qed.

(** The data reported. *)
Lemma done_effect s n q id w (ok : bool) (data : list (option V)) :
  kok s -> k_ops s n = Some (mk_kop q id w) ->
  (match w with KoRead off len b => length data = (if ok then len else 0) | _ => True end) ->
  let s' := kpoll dec q id ok (received w ok data (set_op n None s)) in
  kok s' /\ k_ops s' = upd (k_ops s) n None /\
  (match w with
   | KoRead off len b => ok = true -> forall got, data = read_data len got ->
       firstn len (k_mem s' b) = map (fun i => option_map (dec (off + i)) (got i)) (seq 0 len)
   | _ => True
   end).
Proof.
  intros K Hn Hd. destruct w as [off len b|b|].
  - destruct (ko_read _ K _ _ _ _ _ _ Hn) as [Er Hl]. destruct ok; cbn [received].
    + unfold kpoll. cbn [set_op k_reads k_mem k_ops k_panic]. rewrite Er. cbn [r_off r_cnt r_buf]. rewrite upd_eq.
      assert (Lp : length (put data (k_mem s b)) = length (k_mem s b)) by (apply (put_length enc dec size dec_enc); lia).
      destruct (crypt_loop_ok dec off len 0 (put data (k_mem s b))) as (buf & Eb & Lb & Nb); [lia|]. rewrite Eb.
      cbn [k_reads k_mem k_ops k_panic]. split; [|split; [reflexivity|]].
      * eapply kok_done; eauto.
        -- intros q' id' Hne. now apply upd2_neq.
        -- apply upd2_eq.
        -- intros b' Hb'. cbn in Hb'. rewrite !upd_neq; auto; congruence.
      * intros _ got Eg. rewrite upd_eq. apply nth_error_ext. intros i. rewrite nth_error_firstn, nth_error_map_seq, Nb.
        cbn [Nat.leb andb]. rewrite Nat.add_0_l. destruct (i <? len) eqn:Hi; [|reflexivity].
        rewrite (nth_error_put enc dec dec_enc) by lia. rewrite Hd, Hi, Eg. unfold read_data. rewrite nth_error_map_seq, Hi. reflexivity.
    + unfold kpoll. cbn [set_op k_reads k_mem k_ops k_panic]. rewrite Er. cbn [k_reads k_mem k_ops k_panic].
      split; [|split; [reflexivity|discriminate]]. eapply kok_done; eauto.
      * intros q' id' Hne. now apply upd2_neq.
      * apply upd2_eq.
  - assert (Er : k_reads s q id = None).
    { destruct (k_reads s q id) as [r|] eqn:Er; auto. destruct (ko_entry _ K _ _ _ Er) as (m & Em).
      assert (m = n) by (eapply (ko_ids _ K); eauto). congruence. }
    cbn [received]. unfold kpoll. cbn [set_op k_reads]. rewrite Er. cbn [set_op k_ops]. split; [|auto].
    unfold set_op. eapply kok_done; eauto.
  - assert (Er : k_reads s q id = None).
    { destruct (k_reads s q id) as [r|] eqn:Er; auto. destruct (ko_entry _ K _ _ _ Er) as (m & Em).
      assert (m = n) by (eapply (ko_ids _ K); eauto). congruence. }
    cbn [received]. unfold kpoll. cbn [set_op k_reads]. rewrite Er. cbn [set_op k_ops]. split; [|auto].
    unfold set_op. eapply kok_done; eauto.
Qed.

(** The cipher text and the plain text of a write. *)
Lemma write_texts (m : list (option V)) off cnt plain : cnt <= length m -> defined (firstn cnt m) = Some plain ->
  exists buf cipher, crypt_loop enc off cnt 0 m = Ok buf /\ defined (firstn cnt buf) = Some cipher /\ length buf = length m /\
    length plain = length cipher /\ forall i, nth_error plain i = option_map (dec (off + i)) (nth_error cipher i).
Proof.
  intros Hl Ep. apply defined_spec in Ep. destruct (crypt_loop_ok enc off cnt 0 m) as (buf & Eb & Lb & Nb); [lia|].
  exists buf, (map (fun iv => enc (off + fst iv) (snd iv)) (combine (seq 0 (length plain)) plain)).
  assert (Np : forall i, nth_error (combine (seq 0 (length plain)) plain) i = option_map (fun v => (i, v)) (nth_error plain i)).
  { assert (G : forall (l : list V) k i, nth_error (combine (seq k (length l)) l) i = option_map (fun v => (k + i, v)) (nth_error l i)).
    { clear. induction l as [|v l IH]; intros k [|i]; cbn; auto.
      - now rewrite Nat.add_0_r.
      - rewrite IH. replace (S k + i) with (k + S i) by lia. reflexivity. }
    intros i. now rewrite G. }
  assert (Hp : forall i, nth_error (map Some plain) i = nth_error (firstn cnt m) i) by (intros i; now rewrite Ep).
  split; [exact Eb|]. split; [|split; [exact Lb|split]].
  - apply defined_spec. apply nth_error_ext. intros i. specialize (Hp i).
    rewrite nth_error_firstn, Nb. cbn [Nat.leb andb]. rewrite Nat.add_0_l.
    rewrite nth_error_firstn, nth_error_map in Hp. rewrite !nth_error_map, Np.
    destruct (i <? cnt); destruct (nth_error plain i); cbn in *; try congruence; rewrite <- Hp; reflexivity.
  - rewrite map_length, combine_length, seq_length. lia.
  - intros i. rewrite nth_error_map, Np. destruct (nth_error plain i); cbn; [|reflexivity]. now rewrite dec_enc.
Qed.

(** *** One step *)
Lemma free_id s d p contents tr q id : inv s d p -> disk_behaviour size contents tr p ->
  (forall m, ~ waiting tr m q id) -> forall m w, k_ops s m <> Some (mk_kop q id w).
Proof.
  intros (K & S & F) B W m w E. specialize (F m). rewrite E in F. pose proof (ds_ops _ _ _ S m) as X.
  destruct (d_ops d m) as [[q' id' k]|]; [|contradiction]. destruct F as (-> & -> & _).
  destruct (d_ops p m) as [[q2 id2 k2]|] eqn:Ep; [|contradiction]. destruct X as (X1 & X2 & _). cbn in X1, X2. subst q2 id2.
  apply (W m). apply (LayerIds.in_flight size contents tr p B). eauto.
Qed.

Lemma issue_step s d p n q id w reads mem rb rp des d' :
  (exists c0 es0 tr0, drun size (new_disk c0) es0 = Some (d, tr0)) ->
  inv s d p -> (forall m w', k_ops s m <> Some (mk_kop q id w')) ->
  (forall b, buffer_in w = Some b -> free_buffer s b) ->
  reads = (match w with KoRead off len b => upd2 (k_reads s) q id (Some (mk_creq off len b)) | _ => k_reads s end) ->
  (forall b, buffer_in w <> Some b -> mem b = k_mem s b) ->
  (match w with KoRead off len b => len <= length (mem b) | _ => True end) ->
  (match rb, rp with
   | RRead off len, RRead off' len' => off' = off /\ len' = len
   | RWrite off data, RWrite off' data' => off' = off /\ length data' = length data /\
       forall i, nth_error data' i = option_map (dec (off + i)) (nth_error data i)
   | RFlush, RFlush => True
   | _, _ => False end) ->
  (match w, rb with KoRead off len _, RRead off' len' => off' = off /\ len' = len | KoWrite _, RWrite _ _ => True | KoFlush, RFlush => True
   | _, _ => False end) ->
  drun size d des = Some (d', [TIssue n q id rb]) ->
  exists des' p', drun size p des' = Some (p', [TIssue n q id rp]) /\
    inv (mk_kdev reads mem (upd (k_ops s) n (Some (mk_kop q id w))) (k_panic s)) d' p'.
Proof.
  intros Hd (K & S & F) Hi Hb Hr Hm Hl Hrr Hw R.
  destruct (drun_item size _ _ _ _ _ R) as (e0 & e & e2 & d1 & d2 & R1 & E & R2).
  destruct (quiet_run _ _ _ _ S R1) as (p1 & P1 & S1 & F1).
  apply item_issue in E as [Hu ->].
  destruct (dsim_issue dec size d1 p1 n q id rb rp (dissue n q id rb d1) [TIssue n q id rb] S1) as (p2 & P2 & S2).
  { cbn. rewrite Hu. reflexivity. }
  { exact Hrr. }
  destruct (quiet_run _ _ _ _ S2 R2) as (p3 & P3 & S3 & F3).
  exists (e0 ++ DIssue n q id rp :: e2), p3. split.
  { apply (drun_app2 size e0 p p1 p3 [] [TIssue n q id rp] (DIssue n q id rp :: e2) P1). cbn [drun]. rewrite P2, P3. reflexivity. }
  assert (Hn : k_ops s n = None).
  { pose proof (F1 n _ (F n)) as X. destruct (k_ops s n) as [[q' id' w']|] eqn:En; [|reflexivity].
    destruct (d_ops d1 n) as [[q2 id2 k2]|] eqn:Ed; [|contradiction].
    destruct Hd as (c0 & es0 & tr0 & R0). destruct (issued_run _ _ _ _ _ (drun_app2 size es0 _ _ _ _ _ e0 R0 R1)) as (_ & _ & U).
    rewrite (U _ _ Ed) in Hu. discriminate Hu. }
  split; [apply kok_issue; auto|]. split; [exact S3|]. intros m. apply F3. cbn [k_ops dissue d_ops]. unfold upd.
  destruct (Nat.eqb_spec m n) as [->|]; [|auto]. cbn. split; [reflexivity|]. split; [reflexivity|].
  destruct w, rb; cbn; auto.
Qed.

(** What a completion of a disk says. *)
Lemma done_items (d : disk V) n q id k ok d' data : d_ops d n = Some (mk_dop q id k) ->
  dstep size d (DDone n ok) = Some (d', [TDone n q id ok data]) ->
  data = (match k with DRead _ len got => if ok then read_data len got else [] | _ => [] end) /\ d_ops d' = upd (d_ops d) n None.
Proof.
  intros Ho E. cbn in E. rewrite Ho in E. destruct ok; [destruct k|]; repeat match type of E with
    | (if ?c then _ else _) = _ => destruct c; [|discriminate] end; injection E as <- <-; auto. destruct k; auto.
Qed.

Lemma done_step s d p n ok data s' g des d' q id w :
  inv s d p -> k_ops s n = Some (mk_kop q id w) -> kstep s (KDone n ok data) = Some (s', g, [TDone n q id ok data]) ->
  drun size d des = Some (d', [TDone n q id ok data]) ->
  exists des' p', drun size p des' = Some (p', g) /\ inv s' d' p'.
Proof.
  intros (K & S & F) Hn Hs R.
  destruct (drun_item size _ _ _ _ _ R) as (e0 & e & e2 & d1 & d2 & R1 & E & R2).
  destruct (quiet_run _ _ _ _ S R1) as (p1 & P1 & S1 & F1).
  apply item_done in E as (k & Ek & E).
  destruct (done_items _ _ _ _ _ _ _ _ Ek E) as [Ed Eo].
  destruct (dsim_step enc dec size dec_enc _ _ _ _ _ S1 E) as (p2 & P2 & S2); [discriminate|].
  destruct (quiet_run _ _ _ _ S2 R2) as (p3 & P3 & S3 & F3).
  pose proof (F1 n _ (F n)) as X. rewrite Hn, Ek in X. destruct X as (_ & _ & X).
  cbn [kstep] in Hs. rewrite Hn in Hs.
  destruct (done_effect s n q id w ok data K Hn) as (K' & Ko & G).
  { destruct w; auto. destruct k as [off' len' got'| |]; try contradiction. destruct X as [-> ->]. rewrite Ed. destruct ok; [|reflexivity].
    unfold read_data. now rewrite map_length, seq_length. }
  cbv zeta in Hs. injection Hs as <- <-.
  exists (e0 ++ DDone n ok :: e2), p3. split.
  - apply (drun_app2 size e0 p p1 p3 [] _ (DDone n ok :: e2) P1). cbn [drun]. rewrite P2, P3. rewrite app_nil_r. f_equal. f_equal.
    cbn [map]. f_equal. rewrite Ek. cbn [d_kind]. destruct ok.
    + destruct w as [off len b|b|], k as [off' len' got'| |]; try contradiction.
      * destruct X as [-> ->]. f_equal. symmetry. now apply G.
      * now rewrite Ed.
      * now rewrite Ed.
    + rewrite Ed. destruct w, k; reflexivity.
  - split; [exact K'|]. split; [exact S3|]. intros m. apply F3. rewrite Ko, Eo. unfold upd.
    destruct (Nat.eqb_spec m n) as [->|]; [exact I|auto].
Qed.

Lemma crash_step s d p des d' : inv s d p -> drun size d des = Some (d', [TCrash]) ->
  exists des' p', drun size p des' = Some (p', [TCrash]) /\ inv new_kdev d' p'.
Proof.
  intros (K & S & F) R. destruct (drun_item size _ _ _ _ _ R) as (e0 & e & e2 & d1 & d2 & R1 & E & R2).
  destruct (quiet_run _ _ _ _ S R1) as (p1 & P1 & S1 & F1).
  assert (He : exists sv, e = DCrash sv).
  { unfold dstep in E. destruct e as [n0 q0 id0 r|n0 j|n0 j|n0 ok|pk]; [| | | |eauto].
    - destruct (d_used d1 n0); discriminate E.
    - destruct (d_ops d1 n0) as [[c0 i0 [ | off dd ap|]]|]; try discriminate E. destruct (nth_error dd j); [|discriminate E].
      destruct (_ && _); discriminate E.
    - destruct (d_ops d1 n0) as [[c0 i0 [off len got| |]]|]; try discriminate E. destruct (_ && _); discriminate E.
    - destruct (d_ops d1 n0) as [[c0 i0 k0]|]; [|discriminate E]. destruct ok; [|discriminate E].
      destruct k0; try discriminate E; destruct (in_range_all _ _ _ _); discriminate E. }
  destruct He as (sv & ->).
  destruct (dsim_step enc dec size dec_enc _ _ _ _ _ S1 E) as (p2 & P2 & S2); [discriminate|].
  destruct (quiet_run _ _ _ _ S2 R2) as (p3 & P3 & S3 & F3).
  exists (e0 ++ DCrash sv :: e2), p3. split.
  - apply (drun_app2 size e0 p p1 p3 [] _ (DCrash sv :: e2) P1). cbn [drun]. rewrite P2, P3. reflexivity.
  - split; [apply kok_init|]. split; [exact S3|]. intros m. apply F3. cbn [dstep] in E. injection E as <-. exact I.
Qed.

Lemma kok_fill s b data : kok s -> free_buffer s b ->
  kok (mk_kdev (k_reads s) (upd (k_mem s) b (map Some data)) (k_ops s) (k_panic s)).
Proof.
  intros K Hb. constructor; cbn [k_reads k_mem k_ops k_panic]; try apply K.
  intros n q id off len b' E. destruct (ko_read _ K _ _ _ _ _ _ E) as [A B]. split; auto.
  rewrite upd_neq; auto. intros ->. exact (Hb _ _ E eq_refl).
Qed.

Lemma sim_step contents tr s d p e s' g b des d' :
  (exists c0 es0 tr0, drun size (new_disk c0) es0 = Some (d, tr0)) ->
  inv s d p -> disk_behaviour size contents tr p -> buffers_ok s e -> kstep s e = Some (s', g, b) ->
  respects size contents (tr ++ g) -> drun size d des = Some (d', b) ->
  exists des' p', drun size p des' = Some (p', g) /\ inv s' d' p'.
Proof.
  intros Hd J B Hb Hs Hr R.
  assert (Fr : forall n q id r, g = [TIssue n q id r] -> forall m w, k_ops s m <> Some (mk_kop q id w)).
  { intros n q id r ->. eapply free_id; eauto. apply (Hr tr n q id r []); [reflexivity|]. exists p. exact B. }
  destruct e as [bb data|n q id off cnt bb|n q id off cnt bb|n q id|n ok data|]; cbn [kstep buffers_ok] in *.
  - injection Hs as <- <- <-. destruct J as (K & S & F). destruct (quiet_run _ _ _ _ S R) as (p1 & P1 & S1 & F1).
    exists des, p1. split; [exact P1|]. split; [now apply kok_fill|]. split; [exact S1|]. intros n. apply F1. apply F.
  - injection Hs as <- <- <-. destruct Hb as [Hb Hl]. eapply issue_step; eauto.
    + cbn. intros b' X. now injection X as <-.
    + cbn. intros b' X. apply upd_neq. congruence.
    + cbn. rewrite upd_eq. rewrite (put_length enc dec size dec_enc); rewrite ?repeat_length; lia.
    + cbn. auto.
    + cbn. auto.
  - destruct (defined (firstn cnt (k_mem s bb))) as [plain|] eqn:Ep; [|discriminate Hs]. destruct Hb as [Hb Hl].
    destruct (write_texts (k_mem s bb) off cnt plain Hl Ep) as (buf & cipher & Eb & Ec & Lb & L & T). rewrite Eb, Ec in Hs.
    injection Hs as <- <- <-. eapply (issue_step s d p n q id (KoWrite bb)); eauto.
    + cbn. intros b' X. now injection X as <-.
    + cbn. intros b' X. apply upd_neq. congruence.
    + cbn. auto.
    + cbn. auto.
  - injection Hs as <- <- <-. unfold set_op. eapply (issue_step s d p n q id KoFlush); eauto; cbn; auto. discriminate.
  - destruct (k_ops s n) as [[q id w]|] eqn:En; [|discriminate Hs]. 
    pose proof Hs as Hs'. cbv zeta in Hs'. injection Hs' as _ _ <-.
    eapply done_step; eauto. cbn [kstep]. rewrite En. exact Hs.
  - injection Hs as <- <- <-. eapply crash_step; eauto.
Qed.

Lemma krun_snoc es e : forall s, krun s (es ++ [e]) =
  match krun s es with
  | Some (s1, t1, b1) => match kstep s1 e with Some (s2, t2, b2) => Some (s2, t1 ++ t2, b1 ++ b2) | None => None end
  | None => None
  end.
Proof.
  induction es as [|a es IH]; intros s; cbn [app CryptOpenModel.krun].
  - destruct (kstep s e) as [[[s2 t2] b2]|]; auto. now rewrite !app_nil_r.
  - destruct (kstep s a) as [[[s1 t1] b1]|]; auto. rewrite IH.
    destruct (krun s1 es) as [[[s2 t2] b2]|]; auto. destruct (kstep s2 e) as [[[s3 t3] b3]|]; auto. now rewrite !app_assoc.
Qed.

Lemma bufs_snoc es e : forall s s1 t1 b1, krun s es = Some (s1, t1, b1) -> all_buffers_ok enc dec s (es ++ [e]) ->
  all_buffers_ok enc dec s es /\ buffers_ok s1 e.
Proof.
  induction es as [|a es IH]; intros s s1 t1 b1 R H; cbn [app CryptOpenModel.krun all_buffers_ok] in *.
  - injection R as <- _ _. tauto.
  - destruct (kstep s a) as [[[s2 t2] b2]|]; [|discriminate R]. destruct (krun s2 es) as [[[s3 t3] b3]|] eqn:E; [|discriminate R].
    injection R as <- _ _. destruct H as [H1 H2]. destruct (IH _ _ _ _ E H2). auto.
Qed.

Theorem sim_run stored : forall es s g b d,
  krun new_kdev es = Some (s, g, b) -> all_buffers_ok enc dec new_kdev es ->
  respects size (fun x => dec x (stored x)) g -> disk_behaviour size stored b d ->
  exists p, disk_behaviour size (fun x => dec x (stored x)) g p /\ inv s d p.
Proof.
  induction es as [|e es IH] using rev_ind; intros s g b d R Hb Hr Hd.
  - cbn in R. injection R as <- <- <-. destruct Hd as (des & Hd).
    destruct (quiet_run des (new_disk stored) (new_disk (fun x => dec x (stored x))) d) as (p & P & S & F).
    + split; cbn; auto.
    + exact Hd.
    + exists p. split; [now exists des|]. split; [apply kok_init|]. split; [exact S|]. intros n. apply F. exact I.
  - rewrite krun_snoc in R. destruct (krun new_kdev es) as [[[s1 g1] b1]|] eqn:E1; [|discriminate R].
    destruct (kstep s1 e) as [[[s2 g2] b2]|] eqn:E2; [|discriminate R]. injection R as <- <- <-.
    destruct (bufs_snoc _ _ _ _ _ _ E1 Hb) as [Hb1 Hb2]. destruct Hd as (des & Hd).
    destruct (drun_cut size _ _ _ _ _ Hd) as (e1 & e2 & d1 & D1 & D2).
    destruct (IH s1 g1 b1 d1 eq_refl Hb1 (respects_prefix _ _ _ _ Hr)) as (p1 & P1 & J1); [now exists e1|].
    destruct (sim_step (fun x => dec x (stored x)) g1 s1 d1 p1 e s2 g2 b2 e2 d) as (des' & p2 & P2 & J2); eauto.
    exists p2. split; [|exact J2]. destruct P1 as (des1 & P1). exists (des1 ++ des'). eapply drun_app2; eauto.
Qed.

(** *** The contract towards the base *)
Definition same_item (x y : titem V) : Prop :=
  match x, y with
  | TIssue n q id _, TIssue n' q' id' _ => n' = n /\ q' = q /\ id' = id
  | TDone n q id ok _, TDone n' q' id' ok' _ => n' = n /\ q' = q /\ id' = id /\ ok' = ok
  | TCrash, TCrash => True
  | _, _ => False
  end.

Lemma same_step s e s' g b : kstep s e = Some (s', g, b) -> Forall2 same_item g b.
Proof.
  intros H. destruct e as [bb data|n q id off cnt bb|n q id off cnt bb|n q id|n ok data|]; cbn [CryptOpenModel.kstep] in H.
  - injection H as _ <- <-. constructor.
  - injection H as _ <- <-. repeat constructor.
  - destruct (defined _) as [plain|]; [|discriminate H]. destruct (crypt_loop _ _ _ _ _).
    + destruct (defined _); [|discriminate H]. injection H as _ <- <-. repeat constructor.
    + injection H as _ <- <-. constructor.
    + injection H as _ <- <-. constructor.
  - injection H as _ <- <-. repeat constructor.
  - destruct (k_ops s n) as [[q id w]|]; [|discriminate H]. injection H as _ <- <-. repeat constructor.
  - injection H as _ <- <-. repeat constructor.
Qed.

Lemma same_run : forall es s s' g b, krun s es = Some (s', g, b) -> Forall2 same_item g b.
Proof.
  induction es as [|e es IH]; intros s s' g b R; cbn [CryptOpenModel.krun] in R; [injection R as <- <- <-; constructor|].
  destruct (kstep s e) as [[[s1 t1] b1]|] eqn:E; [|discriminate R].
  destruct (krun s1 es) as [[[s2 t2] b2]|] eqn:E2; [|discriminate R]. injection R as <- <- <-.
  apply Forall2_app; [eapply same_step; eauto|eapply IH; eauto].
Qed.

Lemma same_waiting g b : Forall2 same_item g b -> forall m q id, waiting b m q id -> waiting g m q id.
Proof.
  intros F m q id (t1 & r & t2 & -> & Hc & Hd). apply Forall2_app_inv_r in F as (g1 & g2 & F1 & F2 & ->).
  inversion F2 as [|x y g2' ? Fx F3]; subst. destruct x as [n' q' id' r'|n' q' id' ok' data'|]; try contradiction.
  destruct Fx as (<- & <- & <-). exists g1, r', g2'. split; [reflexivity|]. split.
  - intros X. apply in_split in X as (a & c & ->). apply Forall2_app_inv_l in F3 as (b1 & b2 & _ & F4 & ->).
    inversion F4 as [|x y ? ? Fy]; subst. destruct y; try contradiction. apply Hc. apply in_or_app. right. now left.
  - intros q'' id'' ok data X. apply in_split in X as (a & c & ->). apply Forall2_app_inv_l in F3 as (b1 & b2 & _ & F4 & ->).
    inversion F4 as [|x y ? ? Fy]; subst. destruct y as [|n2 q2 id2 ok2 data2|]; try contradiction. destruct Fy as (-> & -> & -> & ->).
    eapply Hd. apply in_or_app. right. left. reflexivity.
Qed.

Lemma step_one s e s' g b : kstep s e = Some (s', g, b) -> length b <= 1.
Proof.
  intros H. destruct e as [bb data|n q id off cnt bb|n q id off cnt bb|n q id|n ok data|]; cbn [CryptOpenModel.kstep] in H.
  - injection H as _ <- <-. auto.
  - injection H as _ <- <-. auto.
  - destruct (defined _) as [plain|]; [|discriminate H]. destruct (crypt_loop _ _ _ _ _).
    + destruct (defined _); [|discriminate H]. injection H as _ <- <-. auto.
    + injection H as _ <- <-. auto.
    + injection H as _ <- <-. auto.
  - injection H as _ <- <-. auto.
  - destruct (k_ops s n) as [[q id w]|]; [|discriminate H]. injection H as _ <- <-. auto.
  - injection H as _ <- <-. auto.
Qed.

Theorem contract_below stored : forall es s g b,
  krun new_kdev es = Some (s, g, b) -> all_buffers_ok enc dec new_kdev es ->
  respects size (fun x => dec x (stored x)) g -> respects size stored b.
Proof.
  induction es as [|e es IH] using rev_ind; intros s g b R Hb Hr.
  - cbn in R. injection R as <- <- <-. intros [|? ?] n q id r t2 E; discriminate E.
  - rewrite krun_snoc in R. destruct (krun new_kdev es) as [[[s1 g1] b1]|] eqn:E1; [|discriminate R].
    destruct (kstep s1 e) as [[[s2 g2] b2]|] eqn:E2; [|discriminate R]. injection R as <- <- <-.
    destruct (bufs_snoc _ _ _ _ _ _ E1 Hb) as [Hb1 _].
    intros t1 n q id r t2 E B m W. pose proof (same_step _ _ _ _ _ E2) as F2. pose proof (step_one _ _ _ _ _ E2) as L2.
    assert (Cut : (exists t3, b1 = t1 ++ TIssue n q id r :: t3) \/ (t1 = b1 /\ b2 = [TIssue n q id r] /\ t2 = [])).
    { apply app_eq_app in E as (l & [[Ea Eb]|[Ea Eb]]).
      - destruct l as [|i l]; cbn in Eb.
        + right. rewrite app_nil_r in Ea. subst b1 b2. cbn in L2. destruct t2; [auto|cbn in L2; lia].
        + injection Eb as <- Eb. left. exists l. auto.
      - right. destruct l as [|i l].
        + rewrite app_nil_r in Ea. subst t1. cbn in Eb. subst b2. cbn in L2. destruct t2; [auto|cbn in L2; lia].
        + subst b2. cbn in L2. rewrite app_length in L2. cbn in L2. lia. }
    destruct Cut as [(t3 & Et)|(-> & -> & ->)].
    + apply (IH s1 g1 b1 eq_refl Hb1 (respects_prefix _ _ _ _ Hr) t1 n q id r t3 Et B m W).
    + inversion F2 as [|x y g' ? Fx F3]; subst. inversion F3; subst. destruct x as [n' q' id' r'| |]; try contradiction.
      destruct Fx as (<- & <- & <-). destruct B as (d & B).
      destruct (sim_run stored es s1 g1 b1 d E1 Hb1 (respects_prefix _ _ _ _ Hr) B) as (p & P & _).
      apply (Hr g1 n q id r' [] eq_refl (ex_intro _ p P) m). eapply same_waiting; [|exact W]. eapply same_run; eauto.
Qed.
End Open.
