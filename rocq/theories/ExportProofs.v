(** Invariant of the export loop. *)
From Coq Require Import List Arith NArith ZArith Bool Lia Permutation ZifyNat ZifyN ZifyBool.
Import ListNotations.
From Verif Require Import Base BaseFacts ListFacts CryptModel KeyModel ArchiveModel ArchiverModel ArchiveSpec
  ArchiveProofs ArchiverProofs ArchiveSourceModel ArchiveSourceProofs.

Arguments object_key : simpl never.

(** The [i]-th block of [n] bytes of a file. *)
Definition block (n : nat) (f : list byte) (i : nat) : list byte := firstn n (skipn (i * n) f).

(** The store always holds [st]; a get delivers the object or fails. *)
Definition unchanging (st : store) (n : list byte) (r : option (list byte)) : Prop := r = None \/ r = st n.

Lemma block_write_same : forall n f i d, length d = n -> (i + 1) * n <= length f -> block n (file_write f (i * n) d) i = d.
Proof.
  intros n f i d Hd Hf. unfold block, file_write, splice.
  rewrite skipn_app_exact by (rewrite firstn_length; lia). now apply firstn_app_exact.
Qed.

Lemma block_write_other : forall n f i j d, length d = n -> (i + 1) * n <= length f -> j <> i ->
  block n (file_write f (i * n) d) j = block n f j.
Proof.
  intros n f i j d Hd Hf Hj. unfold block, file_write, splice.
  assert (C : (j + 1) * n <= i * n \/ (i + 1) * n <= j * n) by nia. destruct C as [C|C].
  - rewrite skipn_app, firstn_length. replace (j * n - Nat.min (i * n) (length f)) with 0 by lia. rewrite skipn_O.
    rewrite firstn_app. rewrite skipn_length, firstn_length. replace (n - (Nat.min (i * n) (length f) - j * n)) with 0 by lia.
    rewrite firstn_O, app_nil_r. rewrite skipn_firstn_comm, firstn_firstn. f_equal. lia.
  - rewrite app_assoc, skipn_app, app_length, firstn_length.
    rewrite skipn_all2 by (rewrite app_length, firstn_length; lia). cbn [app]. rewrite skipn_skipn. do 2 f_equal. lia.
Qed.

Lemma file_write_length : forall n f i d, length d = n -> (i + 1) * n <= length f -> length (file_write f (i * n) d) = length f.
Proof. intros n f i d Hd Hf. unfold file_write. apply splice_length. lia. Qed.

Section Export.
Variable P : prims.
Variable L : lawful P.
Variable src : source.
Variable T : source_typed src.
Variable st : store.

Local Notation count := (x_count src).
Local Notation size := (x_size src).
(** What the store may answer: its object, or a failure. *)
Variable D : list byte -> option (list byte) -> Prop.
Variable DU : forall n r, D n r -> unchanging st n r.

Record xinv (x : xstate) : Prop := {
  e_q : qinv P src D (x_src x);
  e_next : x_next x <= count;
  e_out : Permutation (q_outstanding (x_src x)) (map (fun i => (i, i)) (x_inflight x));
  e_nodup : NoDup (x_inflight x);
  e_in : forall i, In i (x_inflight x) -> i < x_next x /\ has_stripe src i = true /\ length (q_mem (x_src x) i) = size;
  e_written : x_written x + length (x_inflight x) = x_next x;
  e_len : length (x_file x) = count * size;
  e_todo : forall i, i < count -> (x_next x <= i \/ In i (x_inflight x)) -> block size (x_file x) i = repeat 0%N size;
  e_done : forall i, i < x_next x -> ~ In i (x_inflight x) -> fetch_stripe P st src i size = Ok (block size (x_file x) i)
}.

Lemma outstanding_bufs : forall x, xinv x -> forall b, In b (map snd (q_outstanding (x_src x))) <-> In b (x_inflight x).
Proof.
  intros x I b. rewrite (Permutation_map snd (e_out x I)). rewrite map_map. cbn. now rewrite map_id.
Qed.

Lemma q_mem_upd : forall q b d, qinv P src D q -> ~ In b (map snd (q_outstanding q)) ->
  qinv P src D (mk_asource (q_pending q) (q_finished q) (upd (q_mem q) b d) (q_gets q)).
Proof.
  intros q b d [[V1 V2 V3 V4] G] Hb. split; [|exact G]. constructor; cbn [q_pending q_finished q_mem]; auto.
  apply upd_bufs; [|exact V3]. intros H. apply Hb. unfold q_outstanding. rewrite map_app. apply in_or_app. now right.
Qed.

Lemma fill_ok : forall fuel x, xinv x -> xinv (x_fill src fuel x) /\
  x_written x <= x_written (x_fill src fuel x) /\
  (count - x_next x <= fuel -> MAX_FETCHES <= length (x_inflight (x_fill src fuel x)) \/ x_next (x_fill src fuel x) = count).
Proof.
  induction fuel as [|fuel IH]; intros x I; cbn [x_fill].
  - split; [exact I|]. split; [lia|]. intros H. right. pose proof (e_next x I). lia.
  - destruct ((length (x_inflight x) <? MAX_FETCHES) && (x_next x <? count)) eqn:E.
    2:{ split; [exact I|]. split; [lia|]. intros _. apply andb_false_iff in E. pose proof (e_next x I).
        rewrite Nat.ltb_ge, Nat.ltb_ge in E. lia. }
    apply andb_true_iff in E. destruct E as [E1 E2]. apply Nat.ltb_lt in E1, E2.
    assert (Nn : ~ In (x_next x) (x_inflight x)) by (intros H; apply (e_in x I) in H; lia).
    destruct (has_stripe src (x_next x)) eqn:Hs; cbn [negb].
    + assert (Hb : ~ In (x_next x) (map snd (q_outstanding (x_src x)))) by (rewrite outstanding_bufs by auto; auto).
      set (q1 := mk_asource (q_pending (x_src x)) (q_finished (x_src x)) (upd (q_mem (x_src x)) (x_next x) (repeat 0%N size)) (q_gets (x_src x))).
      assert (Q1 : qinv P src D q1) by (apply q_mem_upd; [apply I|exact Hb]).
      destruct (request_ok P src T D q1 (x_next x) (x_next x) Q1 Hb) as (Q2 & PO & LM & _).
      match goal with |- context [x_fill src fuel ?y] => assert (I' : xinv y); [|destruct (IH y I') as (A & B & C)] end.
      * constructor; cbn [x_next x_written x_inflight x_file x_src].
        -- exact Q2.
        -- lia.
        -- rewrite PO. rewrite map_app. cbn. change (q_outstanding q1) with (q_outstanding (x_src x)). rewrite (e_out x I).
           rewrite Permutation_app_comm. reflexivity.
        -- rewrite Permutation_app_comm. cbn. constructor; [exact Nn|apply I].
        -- intros i Hi. rewrite LM. apply in_app_or in Hi. destruct Hi as [Hi|[<-|[]]].
           ++ destruct (e_in x I i Hi) as (H1 & H2 & H3). split; [lia|]. split; [exact H2|]. cbn. rewrite upd_neq; [exact H3|].
              intros ->. contradiction.
           ++ split; [lia|]. split; [exact Hs|]. cbn. rewrite upd_eq. apply repeat_length.
        -- rewrite app_length. cbn. pose proof (e_written x I). lia.
        -- apply (e_len x I).
        -- intros i Hi H. apply (e_todo x I i Hi). destruct H as [H|H]; [left; lia|]. apply in_app_or in H.
           destruct H as [H|[<-|[]]]; auto.
        -- intros i Hi H. apply (e_done x I).
           ++ assert (i <> x_next x) by (intros ->; apply H; apply in_or_app; right; now left). lia.
           ++ intros X. apply H. apply in_or_app. now left.
      * split; [exact A|]. split; [cbn [x_written] in B; lia|]. intros H. apply C. cbn [x_next]. lia.
    + match goal with |- context [x_fill src fuel ?y] => assert (I' : xinv y); [|destruct (IH y I') as (A & B & C)] end.
      * constructor; cbn [x_next x_written x_inflight x_file x_src]; try apply I.
        -- lia.
        -- intros i Hi. destruct (e_in x I i Hi) as (H1 & H2 & H3). repeat split; auto; lia.
        -- pose proof (e_written x I). lia.
        -- intros i Hi H. apply (e_todo x I i Hi). destruct H as [H|H]; [left; lia|now right].
        -- intros i Hi H. destruct (Nat.eq_dec i (x_next x)) as [->|Hne]; [|apply (e_done x I); auto; lia].
           unfold fetch_stripe. unfold has_stripe in Hs. destruct (map_get (s_map src) (x_next x)); [discriminate|].
           f_equal. symmetry. apply (e_todo x I); auto.
      * split; [exact A|]. split; [cbn [x_written] in B; lia|]. intros H. apply C. cbn [x_next]. lia.
Qed.

Lemma outcome_fetch : forall i d, outcome P src D i true d -> fetch_stripe P st src i (length d) = Ok d.
Proof.
  intros i d H. unfold outcome in H. unfold fetch_stripe. destruct (map_get (s_map src) i) as [[|h]|].
  - destruct H as [_ H]. now rewrite <- H.
  - destruct H as (r & Hr0 & H). destruct (DU _ _ Hr0) as [->|Hr]; [discriminate|]. subst r. destruct (st (object_key h)) as [data|]; [exact H|discriminate].
  - destruct H as [_ H]. now rewrite <- H.
Qed.

(** Draining the answers of a poll. *)
Record dinv (x : xstate) (out : list (nat * nat * bool)) : Prop := {
  d_q : qinv P src D (x_src x);
  d_next : x_next x <= count;
  d_out : Permutation (map fst out ++ q_outstanding (x_src x)) (map (fun i => (i, i)) (x_inflight x));
  d_nodup : NoDup (x_inflight x);
  d_in : forall i, In i (x_inflight x) -> i < x_next x /\ has_stripe src i = true /\ length (q_mem (x_src x) i) = size;
  d_written : x_written x + length (x_inflight x) = x_next x;
  d_len : length (x_file x) = count * size;
  d_todo : forall i, i < count -> (x_next x <= i \/ In i (x_inflight x)) -> block size (x_file x) i = repeat 0%N size;
  d_done : forall i, i < x_next x -> ~ In i (x_inflight x) -> fetch_stripe P st src i size = Ok (block size (x_file x) i);
  d_outcome : Forall (fun y => outcome P src D (fst (fst y)) (snd y) (q_mem (x_src x) (snd (fst y)))) out
}.

Lemma filter_remove : forall (l : list nat) i, NoDup l -> In i l ->
  Permutation l (i :: filter (fun j => negb (j =? i)) l).
Proof.
  induction l as [|y l IH]; intros i ND H; [destruct H|]. inversion ND; subst. cbn [filter]. destruct (y =? i) eqn:E.
  - apply Nat.eqb_eq in E. subst y. cbn [negb]. constructor.
    assert (F : filter (fun j => negb (j =? i)) l = l).
    { clear - H2. induction l as [|z l IH]; [reflexivity|]. cbn. destruct (z =? i) eqn:E.
      - apply Nat.eqb_eq in E. subst. exfalso. apply H2. now left.
      - cbn. f_equal. apply IH. intros X. apply H2. now right. }
    now rewrite F.
  - cbn [negb]. destruct H as [->|H]; [rewrite Nat.eqb_refl in E; discriminate|]. rewrite (IH i) at 1; auto. apply perm_swap.
Qed.

Lemma drain_ok : forall out x, dinv x out ->
  (existsb (fun y => negb (snd y)) out = true /\ x_drain src x out = None) \/
  (existsb (fun y => negb (snd y)) out = false /\ exists x', x_drain src x out = Some x' /\ xinv x' /\
     x_written x' = x_written x + length out /\ x_src x' = x_src x).
Proof.
  induction out as [|[[i b] ok] out IH]; intros x I; cbn [x_drain existsb].
  - right. split; [reflexivity|]. exists x. split; [reflexivity|]. split; [|split; [cbn; lia|reflexivity]].
    destruct I. constructor; auto.
  - cbn [snd]. destruct ok; cbn [negb orb].
    2:{ left. auto. }
    assert (Hin : In (i, b) (map (fun i => (i, i)) (x_inflight x))).
    { apply (Permutation_in _ (d_out _ _ I)). cbn. now left. }
    apply in_map_iff in Hin. destruct Hin as (j & E & Hj). injection E as E1 E2. subst j. subst b.
    assert (Hex : existsb (Nat.eqb i) (x_inflight x) = true) by (apply existsb_exists; exists i; rewrite Nat.eqb_refl; auto).
    rewrite Hex.
    destruct (d_in _ _ I i Hj) as (H1 & H2 & H3).
    pose proof (d_next _ _ I) as Hn. pose proof (d_len _ _ I) as Hl.
    assert (Hroom : (i + 1) * size <= length (x_file x)) by (rewrite Hl; nia).
    pose proof (filter_remove _ _ (d_nodup _ _ I) Hj) as FR.
    pose proof (d_outcome _ _ I) as Ho. inversion Ho as [|? ? Hoi Ho']; subst. cbn [fst snd] in Hoi.
    apply outcome_fetch in Hoi. rewrite H3 in Hoi.
    match goal with |- context [x_drain src ?y out] => assert (I' : dinv y out) end.
    { constructor; cbn [x_next x_written x_inflight x_file x_src]; auto.
      - apply I.
      - pose proof (d_out _ _ I) as PO. cbn in PO. rewrite FR in PO. cbn in PO. now apply Permutation_cons_inv in PO.
      - apply NoDup_filter. apply I.
      - intros j Hj'. apply filter_In in Hj'. apply (d_in _ _ I). apply Hj'.
      - pose proof (d_written _ _ I) as W. rewrite (Permutation_length FR) in W. cbn in W. lia.
      - rewrite file_write_length; auto.
      - intros j Hjc Hor. assert (Hne : j <> i).
        { intros ->. destruct Hor as [Hor|Hor]; [lia|]. apply filter_In in Hor. rewrite Nat.eqb_refl in Hor. destruct Hor; discriminate. }
        rewrite block_write_other; auto. apply (d_todo _ _ I); auto. destruct Hor as [Hor|Hor]; [now left|]. right.
        apply filter_In in Hor. apply Hor.
      - intros j Hjn Hni. destruct (Nat.eq_dec j i) as [->|Hne].
        + rewrite block_write_same; auto.
        + rewrite block_write_other; auto. apply (d_done _ _ I); auto. intros X. apply Hni. apply filter_In. split; [exact X|].
          apply Nat.eqb_neq in Hne. now rewrite Hne. }
    destruct (IH _ I') as [[A B]|[A (x' & B & C & E & F)]]; [left; auto|right]. split; [exact A|]. exists x'. rewrite B.
    split; [reflexivity|]. split; [exact C|]. cbn [x_written x_src length] in *. split; [lia|exact F].
Qed.

(** One pass. *)
Lemma pass_ok : forall x cs r, xinv x -> Forall (fun c => D (fst c) (snd c)) cs ->
  x_pass P src x (XPass cs) = Some r ->
  (r = XFailed /\ exists q out, q_poll P src (x_src (x_fill src count x)) cs = Some (Ok (q, out)) /\ existsb (fun y => negb (snd y)) out = true) \/
  exists x2 q out, q_poll P src (x_src (x_fill src count x)) cs = Some (Ok (q, out)) /\ xinv x2 /\ x_src x2 = q /\
    x_written x2 = x_written (x_fill src count x) + length out /\
    r = if x_written x2 <? count then XMore x2 else XDone (x_file x2).
Proof.
  intros x cs r I Hd H. destruct (fill_ok count x I) as (I1 & _ & _). unfold x_pass in H.
  set (x1 := x_fill src count x) in *. destruct (q_poll P src (x_src x1) cs) as [rq|] eqn:Eq; [|discriminate].
  destruct (poll_ok P L src D (x_src x1) cs rq (e_q _ I1) Hd Eq) as (q & out & -> & Q & Qf & PO & Fo & LM & MM & Gg).
  assert (DI : dinv (mk_x (x_next x1) (x_written x1) (x_inflight x1) (x_file x1) q) out).
  { destruct I1. constructor; cbn [x_next x_written x_inflight x_file x_src]; auto.
    - now rewrite PO.
    - intros i Hi. rewrite LM. auto. }
  destruct (drain_ok _ _ DI) as [[A B]|[A (x2 & B & C & E & F)]]; rewrite B in H; injection H as <-.
  - left. split; [reflexivity|]. eauto.
  - right. exists x2, q, out. cbn [x_src x_written] in *. auto.
Qed.

Lemma inv_start : forall x, x_start src = XMore x ->
  (source_sector_count src * 512 < 2 ^ 64)%N -> xinv x /\ x_written x = 0 /\ 0 < count /\ 0 < size.
Proof.
  intros x H B. unfold x_start in H. destruct (x_sectors src =? 0)%N eqn:E; [discriminate|]. injection H as <-.
  apply N.eqb_neq in E.
  assert (W1 : x_sectors src = source_sector_count src) by (unfold x_sectors, wrap64; apply N.mod_small; lia).
  assert (W2 : x_total src = (source_sector_count src * 512)%N) by (unfold x_total, wrap64; rewrite W1; apply N.mod_small; lia).
  assert (S0 : s_ssc src <> 0%N).
  { intros H0. apply E. rewrite W1. unfold source_sector_count. rewrite H0. destruct (s_map src); lia. }
  assert (C : exists k, source_sector_count src = (N.of_nat k * s_ssc src)%N /\ count = k).
  { unfold x_count. rewrite W1. unfold source_sector_count in *. destruct (s_map src) as [|e m]; [rewrite W1 in E; lia|].
    exists (max_stripe_id (e :: m) + 1). split; [reflexivity|].
    set (k := N.of_nat (max_stripe_id (e :: m) + 1)).
    rewrite N.add_comm, N.div_add by auto. rewrite N.div_small by lia. lia. }
  destruct C as (k & Ck & Cc). unfold x_size.
  assert (Tl : N.to_nat (x_total src) = count * (N.to_nat (s_ssc src) * 512)) by (rewrite W2, Ck, Cc; lia).
  assert (Kp : 0 < count).
  { rewrite Cc. destruct k; [|lia]. exfalso. apply E. rewrite W1, Ck. reflexivity. }
  split; [|cbn; split; [reflexivity|split; [exact Kp|lia]]].
  constructor; cbn [x_next x_written x_inflight x_file x_src].
  - apply qinv_new.
  - lia.
  - reflexivity.
  - constructor.
  - intros i [].
  - reflexivity.
  - rewrite repeat_length. exact Tl.
  - intros i Hi _. unfold block, x_size. rewrite Tl.
    replace (count * (N.to_nat (s_ssc src) * 512)) with (i * (N.to_nat (s_ssc src) * 512) + ((count - i) * (N.to_nat (s_ssc src) * 512))) by nia.
    rewrite repeat_app, skipn_app_exact by apply repeat_length.
    replace ((count - i) * (N.to_nat (s_ssc src) * 512)) with (N.to_nat (s_ssc src) * 512 + (count - i - 1) * (N.to_nat (s_ssc src) * 512)) by nia.
    rewrite repeat_app. apply firstn_app_exact, repeat_length.
  - intros i Hi. lia.
Qed.

End Export.
