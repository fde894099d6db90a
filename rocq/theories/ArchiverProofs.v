(** The invariant of the archiver's loop. *)
From Coq Require Import List Arith NArith ZArith Bool Lia Sorted Permutation ZifyBool ZifyNat ZifyN.
Import ListNotations.
From Verif Require Import Base BaseFacts ListFacts MetadataModel CryptModel CryptSpec CryptProofs KeyModel CryptProps
  ArchiveModel ArchiverModel ArchiveSpec ArchiveProofs.

Arguments object_key : simpl never.
Arguments META_NAME : simpl never.
Arguments MAPPING_NAME : simpl never.
Arguments ascii_bytes : simpl never.

(** ** Flags *)
Lemma land_pow2_testbit : forall h k, N.eqb (N.land h (2 ^ k)) 0 = negb (N.testbit h k).
Proof.
  intros h k. destruct (N.testbit h k) eqn:E; cbn [negb].
  - apply N.eqb_neq. intros H. assert (T : N.testbit (N.land h (2 ^ k)) k = true).
    { rewrite N.land_spec, E, N.pow2_bits_true. reflexivity. }
    rewrite H, N.bits_0 in T. discriminate.
  - apply N.eqb_eq. apply N.bits_inj. intros i. rewrite N.land_spec, N.bits_0, N.pow2_bits_eqb.
    destruct (N.eqb_spec k i); [subst; now rewrite E|apply andb_false_r].
Qed.

Lemma flag_written : forall h, flag FLAG_WRITTEN h = N.testbit h 1.
Proof. intros h. unfold flag. change FLAG_WRITTEN with (2 ^ 1)%N. rewrite land_pow2_testbit. apply negb_involutive. Qed.
Lemma flag_fetched : forall h, flag FLAG_FETCHED h = N.testbit h 0.
Proof. intros h. unfold flag. change FLAG_FETCHED with (2 ^ 0)%N. rewrite land_pow2_testbit. apply negb_involutive. Qed.
Lemma flag_source : forall h, flag FLAG_HAS_SOURCE h = N.testbit h 2.
Proof. intros h. unfold flag. change FLAG_HAS_SOURCE with (2 ^ 2)%N. rewrite land_pow2_testbit. apply negb_involutive. Qed.

(** ** Lists *)
Lemma find_buf_In : forall l st x, find_buf l st = Some x -> In (st, x) l.
Proof.
  induction l as [|[k v] l IH]; intros st x H; [discriminate|]. cbn in H.
  destruct (k =? st) eqn:E; [apply Nat.eqb_eq in E; left; congruence|right; auto].
Qed.

Lemma remove_buf_In : forall l st e, NoDup (map fst l) -> (In e (remove_buf l st) <-> In e l /\ fst e <> st).
Proof.
  induction l as [|[k v] l IH]; intros st e ND; cbn [remove_buf]; [cbn; tauto|].
  cbn in ND. inversion ND as [|? ? Hn ND']; subst. cbn [fst]. destruct (k =? st) eqn:E.
  - apply Nat.eqb_eq in E. subst k. split.
    + intros H. split; [now right|]. intros E. apply Hn. rewrite <- E. now apply in_map.
    + intros [[<-|H] Hne]; [cbn in Hne; contradiction|auto].
  - cbn [In]. rewrite IH by auto. apply Nat.eqb_neq in E. split.
    + intros [<-|[H1 H2]]; [cbn; auto|auto].
    + intros [[<-|H1] H2]; auto.
Qed.

(** Removing the entry of [st] permutes it out of the list. *)
Lemma remove_buf_perm : forall l st x, find_buf l st = Some x ->
  Permutation.Permutation l ((st, x) :: remove_buf l st).
Proof.
  induction l as [|[k v] l IH]; intros st x H; [discriminate|]. cbn [find_buf fst snd] in H. cbn [remove_buf fst].
  destruct (k =? st) eqn:E.
  - apply Nat.eqb_eq in E. subst k. injection H as <-. reflexivity.
  - apply IH in H. rewrite H at 1. apply Permutation.perm_swap.
Qed.

Lemma remove_nth_In : forall {A} (l : list A) i x, In x (remove_nth i l) -> In x l.
Proof.
  intros A. induction l as [|y l IH]; intros [|i] x H; cbn in *; auto.
  destruct H as [->|H]; eauto.
Qed.

Lemma remove_nth_length : forall {A} (l : list A) i x, nth_error l i = Some x -> S (length (remove_nth i l)) = length l.
Proof.
  intros A. induction l as [|y l IH]; intros [|i] x H; cbn in *; try discriminate; auto.
  f_equal. eauto.
Qed.

Lemma remove_nth_other : forall {A} (l : list A) i x y, nth_error l i = Some x -> In y l -> y = x \/ In y (remove_nth i l).
Proof.
  intros A. induction l as [|z l IH]; intros [|i] x y H Hy; cbn in *; try discriminate; try contradiction.
  - injection H as ->. destruct Hy; auto.
  - destruct Hy as [->|Hy]; auto. destruct (IH i x y H Hy); auto.
Qed.

Lemma seen_key_In : forall l k, seen_key l k = true <-> In k l.
Proof.
  intros l k. unfold seen_key. rewrite existsb_exists. split.
  - intros (x & H & E). apply bytes_eqb_spec in E. now subst.
  - intros H. exists k. split; [auto|apply bytes_eqb_refl].
Qed.

Section Inv.
Variable P : prims.
Variable c : aconf.
Hypothesis L : lawful P.
Hypothesis K : aconf_ok c.

Definition object_of (st : nat) : res (list byte) :=
  stripe_object P (ac_cipher c) (ac_comp c) (ac_ssc c) st (contents c st).

(** A stripe object of this disk under its proper name. *)
Definition good_stripe (n d : list byte) : Prop :=
  exists st, has_data c st /\ is_zero_stripe (contents c st) = false /\ object_of st = Ok d /\ n = object_key (sha P d).
Definition good_meta (n d : list byte) : Prop :=
  n = META_NAME /\ exists m, archive_metadata_of P c = Ok m /\ d = json P m.
Definition good_mapping (m : content_map) (n d : list byte) : Prop :=
  n = MAPPING_NAME /\ serialize_stripe_mapping P m (ac_hmac_key c) (ac_cipher c) = Ok d.
Definition good (m : content_map) (n d : list byte) : Prop :=
  good_stripe n d \/ good_meta n d \/ good_mapping m n d.

Definition entry_ok (seen : list (list byte)) (e : nat * spec) : Prop :=
  has_data c (fst e) /\
  match snd e with
  | SZero => is_zero_stripe (contents c (fst e)) = true
  | SDigest h => is_zero_stripe (contents c (fst e)) = false /\
      exists o, object_of (fst e) = Ok o /\ h = sha P o /\ In (object_key h) seen
  end.

Definition buf_of (e : nat * (nat * bool)) : nat := fst (snd e).

(** Everything is archived and visible in the store. *)
Definition frozen (s : astate) : Prop :=
  (forall st, has_data c st -> In st (map fst (a_map s))) /\
  (forall k, In k (a_seen s) -> a_store s k <> None).
Definition meta_stored (s : astate) : Prop := a_store s META_NAME <> None.

Definition tail_of (s : astate) (t : list (list byte)) : Prop :=
  map po_name (a_started s) = rev (a_seen s) ++ t /\
  match a_phase s with
  | PLoop => t = []
  | PMeta => t = [META_NAME] /\ frozen s
  | PMapping => t = [META_NAME; MAPPING_NAME] /\ frozen s /\ meta_stored s
  | PDone => t = [META_NAME; MAPPING_NAME] /\ frozen s /\ meta_stored s /\ a_store s MAPPING_NAME <> None
  | _ => t = [] \/ t = [META_NAME] \/ (t = [META_NAME; MAPPING_NAME] /\ frozen s /\ meta_stored s)
  end.

Record ainv (s : astate) : Prop := {
  i_pool : NoDup (a_free s ++ map buf_of (a_bufs s));
  i_bufs : NoDup (map fst (a_bufs s));
  i_buf : forall st b f, In (st, (b, f)) (a_bufs s) -> st < a_next s /\ has_data c st /\ (f = true -> a_mem s b = contents c st);
  i_sorted : StronglySorted lt (map fst (a_map s));
  i_map : Forall (entry_ok (a_seen s)) (a_map s);
  i_cover : a_phase s = PLoop -> forall st, st < a_next s -> has_data c st ->
            In st (map fst (a_map s)) \/ In st (map fst (a_bufs s));
  i_puts : forall p, In p (a_puts s) -> In p (a_started s);
  i_started : forall p, In p (a_started s) -> good (a_map s) (po_name p) (po_data p);
  i_store : forall n d, a_store s n = Some d -> In (mk_put n d) (a_started s);
  i_seen : NoDup (a_seen s);
  i_pending : a_phase s = PLoop -> forall k, In k (a_seen s) -> a_store s k <> None \/ exists p, In p (a_puts s) /\ po_name p = k;
  i_inflight : a_phase s = PLoop -> a_inflight s = length (a_puts s);
  i_tail : exists t, tail_of s t;
  i_keys : forall k, In k (a_seen s) -> exists h, k = object_key h;
  i_reads : NoDup (map fst (a_reads s)) /\ forall st d, In (st, d) (a_reads s) -> st < a_next s /\ has_data c st /\
     exists h, nth_error (ac_headers c) st = Some h /\ d = from_disk h
}.

Lemma header_some : forall st h, header c st = Ok h -> nth_error (ac_headers c) st = Some h.
Proof. intros st h. unfold header, index. destruct (nth_error _ _); congruence. Qed.

Lemma stripe_bytes_contents : forall st h, header c st = Ok h -> stripe_bytes c st h = contents c st.
Proof.
  intros st h H. apply header_some in H. unfold stripe_bytes, contents, from_disk. now rewrite H, flag_written, flag_fetched.
Qed.

Lemma has_data_flag : forall st h, header c st = Ok h -> st < ac_count c -> (has_data c st <-> should_be_archived h = true).
Proof.
  intros st h H Hs. apply header_some in H. unfold has_data, should_be_archived. rewrite flag_written, flag_source, orb_true_iff. split.
  - intros (_ & h' & E & D). congruence.
  - intros D. eauto.
Qed.

Lemma contents_length : forall st, st < ac_count c -> length (contents c st) = stripe_size c.
Proof.
  intros st H. unfold contents. destruct (nth_error (ac_headers c) st) eqn:E.
  - destruct (_ || _); [now apply (k_dev c K)|now apply (k_src c K)].
  - apply nth_error_None in E. pose proof (k_count c K). lia.
Qed.

Lemma anew_inv : ainv (anew c).
Proof.
  constructor; cbn.
  - rewrite app_nil_r. apply seq_NoDup.
  - constructor.
  - intros; contradiction.
  - constructor.
  - constructor.
  - intros; lia.
  - intros; contradiction.
  - intros; contradiction.
  - discriminate.
  - constructor.
  - intros; contradiction.
  - auto.
  - exists []. split; reflexivity.
  - intros; contradiction.
  - split; [constructor|intros; contradiction].
Qed.

(** Growing the map keeps every started upload good, as long as no mapping has been started. *)
Lemma good_map_irrel : forall m m' n d, n <> MAPPING_NAME -> good m n d -> good m' n d.
Proof. intros m m' n d H [G|[G|[E _]]]; [left|right; left|contradiction]; auto. Qed.

Lemma loop_names : forall s t, tail_of s t -> a_phase s = PLoop -> ainv s ->
  forall p, In p (a_started s) -> exists h, po_name p = object_key h.
Proof.
  intros s t [E T] Hp I p Hin. rewrite Hp in T. subst t. rewrite app_nil_r in E.
  apply (in_map po_name) in Hin. rewrite E in Hin. apply in_rev in Hin. now apply (i_keys s I).
Qed.

Lemma with_phase_dead : forall s p, (p = PFailed \/ p = PPanicked) -> ainv s -> ainv (with_phase p s).
Proof.
  intros s p Hp I. destruct I as [A1 A2 A3 A4 A5 A6 A7 A8 A9 A10 A11 A12 [t [T1 T2]] A14 A15].
  constructor; cbn; auto; try (intros ->; destruct Hp; discriminate).
  exists t. split; [exact T1|]. cbn. destruct (a_phase s); destruct Hp; subst p; intuition.
Qed.

(** Uploads completing or becoming visible. *)
Lemma store_put_grow : forall st n d k, st k <> None -> store_put st n d k <> None.
Proof. intros st n d k H. unfold store_put. destruct (bytes_eqb k n); [discriminate|auto]. Qed.
Lemma store_put_same : forall st n d, store_put st n d n <> None.
Proof. intros st n d. unfold store_put. rewrite bytes_eqb_refl. discriminate. Qed.

Lemma store_put_started : forall s n d p, ainv s -> In p (a_puts s) ->
  store_put (a_store s) (po_name p) (po_data p) n = Some d -> In (mk_put n d) (a_started s).
Proof.
  intros s n d p I Hp H. unfold store_put in H. destruct (bytes_eqb n (po_name p)) eqn:E.
  - apply bytes_eqb_spec in E. subst n. injection H as <-. destruct p. now apply (i_puts s I).
  - now apply (i_store s I).
Qed.

Lemma stored_inv : forall s p, ainv s -> In p (a_puts s) ->
  ainv (set_puts (a_puts s) (a_inflight s) (store_put (a_store s) (po_name p) (po_data p)) s).
Proof.
  intros s p I Hp. pose proof (store_put_started s) as SP. pose proof I as I0.
  destruct I as [A1 A2 A3 A4 A5 A6 A7 A8 A9 A10 A11 A12 [t [T1 T2]] A14 A15].
  assert (F : frozen s -> frozen (set_puts (a_puts s) (a_inflight s) (store_put (a_store s) (po_name p) (po_data p)) s)).
  { intros [F1 F2]. split; cbn; auto. intros k Hk. apply store_put_grow. auto. }
  constructor; cbn; auto.
  - intros n d H. eapply SP; eauto.
  - intros Hl k Hk. destruct (A11 Hl k Hk) as [H|H]; auto. left. now apply store_put_grow.
  - exists t. split; [exact T1|]. cbn. pose proof (store_put_grow (a_store s) (po_name p) (po_data p)) as G.
    unfold meta_stored in *. cbn. pose proof (G META_NAME) as G1. pose proof (G MAPPING_NAME) as G2. clear G SP.
    destruct (a_phase s); tauto.
Qed.

(** Removing upload [i] from the list after it became visible. *)
Lemma removed_inv : forall s i p k, ainv s -> nth_error (a_puts s) i = Some p ->
  (a_phase s = PLoop -> a_store s (po_name p) <> None /\ a_inflight s = S k) ->
  ainv (set_puts (remove_nth i (a_puts s)) k (a_store s) s).
Proof.
  intros s i p k I Hn Hl. destruct I as [A1 A2 A3 A4 A5 A6 A7 A8 A9 A10 A11 A12 [t [T1 T2]] A14 A15].
  constructor; cbn; auto.
  - intros q Hq. apply A7. eapply remove_nth_In; eauto.
  - intros HL k0 Hk. destruct (A11 HL k0 Hk) as [H|(q & Hq & E)]; auto.
    destruct (remove_nth_other _ _ _ _ Hn Hq) as [->|H]; [left; subst k0; now apply Hl|right; eauto].
  - intros HL. destruct (Hl HL) as [_ E]. rewrite (A12 HL) in E. apply remove_nth_length in Hn. lia.
  - exists t. split; [exact T1|]. cbn. destruct (a_phase s); auto.
Qed.

Lemma set_puts_twice : forall a b st1 x y st2 s,
  set_puts x y st2 (set_puts a b st1 s) = set_puts x y st2 s.
Proof. reflexivity. Qed.

Lemma uploaded_inv : forall s i p k, ainv s -> nth_error (a_puts s) i = Some p ->
  (a_phase s = PLoop -> a_inflight s = S k) ->
  ainv (set_puts (remove_nth i (a_puts s)) k (store_put (a_store s) (po_name p) (po_data p)) s).
Proof.
  intros s i p k I Hn Hl. pose proof (nth_error_In _ _ Hn) as Hin. pose proof (stored_inv s p I Hin) as I2.
  apply (removed_inv _ i p k) in I2; cbn; auto. cbn. intros HL. split; [apply store_put_same|auto].
Qed.

(** A failed upload ends the run. *)
Lemma failed_inv : forall s i p k, ainv s -> nth_error (a_puts s) i = Some p ->
  ainv (with_phase PFailed (set_puts (remove_nth i (a_puts s)) k (a_store s) s)).
Proof.
  intros s i p k I Hn. assert (I2 : ainv (with_phase PFailed s)) by (apply with_phase_dead; auto).
  apply (removed_inv _ i p k) in I2; cbn; auto. discriminate.
Qed.

Lemma NoDup_snoc_buf : forall s st b x, ainv s -> find_buf (a_bufs s) st = Some (b, x) ->
  Permutation.Permutation (a_free s ++ map buf_of (a_bufs s)) ((a_free s ++ [b]) ++ map buf_of (remove_buf (a_bufs s) st)).
Proof.
  intros s st b x I H. apply remove_buf_perm in H. apply (Permutation.Permutation_map buf_of) in H.
  rewrite <- app_assoc. apply Permutation.Permutation_app_head. exact H.
Qed.

Lemma remove_buf_fst : forall s st x, ainv s -> find_buf (a_bufs s) st = Some x ->
  NoDup (map fst (remove_buf (a_bufs s) st)) /\
  (forall k, In k (map fst (remove_buf (a_bufs s) st)) <-> In k (map fst (a_bufs s)) /\ k <> st).
Proof.
  intros s st x I H. pose proof (remove_buf_perm _ _ _ H) as Pm. apply (Permutation.Permutation_map fst) in Pm.
  cbn in Pm. pose proof (i_bufs s I) as ND. rewrite Pm in ND. inversion ND as [|? ? Hn ND']; subst.
  split; [exact ND'|]. intros k. split.
  - intros Hk. split.
    + rewrite Pm. now right.
    + intros ->. contradiction.
  - intros [Hk Hne]. rewrite Pm in Hk. destruct Hk; [congruence|auto].
Qed.

(** The two successful outcomes of [start_upload]: the stripe's entry is recorded
    and, if its object is new, an upload starts. *)
Lemma upload_inv : forall s st b x e puts inflight seen started,
  ainv s -> a_phase s = PLoop -> find_buf (a_bufs s) st = Some (b, x) -> entry_ok seen (st, e) ->
  ((puts = a_puts s /\ inflight = a_inflight s /\ seen = a_seen s /\ started = a_started s) \/
   (exists h o, puts = a_puts s ++ [mk_put (object_key h) o] /\ inflight = S (a_inflight s) /\
      seen = object_key h :: a_seen s /\ started = a_started s ++ [mk_put (object_key h) o] /\
      good_stripe (object_key h) o /\ ~ In (object_key h) (a_seen s))) ->
  ainv (mk_astate (a_phase s) (a_next s) (a_free s ++ [b]) (remove_buf (a_bufs s) st) (a_mem s) puts inflight
          seen (map_insert (a_map s) st e) (a_store s) (a_reads s) started).
Proof.
  intros s st b x e puts inflight seen started I Hl Hf He Hcase.
  pose proof (remove_buf_fst s st _ I Hf) as [RN RK].
  pose proof (NoDup_snoc_buf s st b x I Hf) as RP.
  pose proof I as I0. destruct I0 as [A1 A2 A3 A4 A5 A6 A7 A8 A9 A10 A11 A12 [t T] A14 A15].
  pose proof (loop_names s t T Hl I) as LN. destruct T as [T1 T2]. rewrite Hl in T2. subst t.
  assert (Sub : forall k, In k (a_seen s) -> In k seen).
  { destruct Hcase as [(_ & _ & -> & _)|(h & o & _ & _ & -> & _)]; cbn; auto. }
  constructor; cbn.
  - now rewrite <- RP.
  - exact RN.
  - intros st' b' f' H. apply remove_buf_In in H; auto. destruct H as [H _]. now apply A3.
  - now apply map_insert_sorted.
  - apply map_insert_Forall; [|exact He]. eapply Forall_impl; [|exact A5]. intros [k v] [H1 H2]. split; [exact H1|].
    cbn in *. destruct v; auto. destruct H2 as [H2 (o & E1 & E2 & E3)]. split; auto. exists o. auto.
  - intros _ st' Hlt Hd. rewrite map_insert_keys, RK. destruct (A6 Hl st' Hlt Hd); auto.
    destruct (Nat.eq_dec st' st); auto.
  - destruct Hcase as [(-> & -> & -> & ->)|(h & o & -> & -> & -> & -> & _)]; auto.
    intros p. rewrite !in_app_iff. intros [H|H]; auto.
  - assert (G : forall p, In p (a_started s) -> good (map_insert (a_map s) st e) (po_name p) (po_data p)).
    { intros p Hp. eapply good_map_irrel; [|apply A8; exact Hp]. destruct (LN p Hp) as [h ->]. apply object_key_mapping. }
    destruct Hcase as [(-> & -> & -> & ->)|(h & o & -> & -> & -> & -> & GS & _)]; auto.
    intros p. rewrite in_app_iff. intros [H|[<-|[]]]; auto. left. exact GS.
  - intros n d H. apply A9 in H. destruct Hcase as [(-> & -> & -> & ->)|(h & o & -> & -> & -> & -> & _)]; auto.
    rewrite in_app_iff. auto.
  - destruct Hcase as [(-> & -> & -> & ->)|(h & o & -> & -> & -> & -> & _ & N)]; auto. constructor; auto.
  - intros _ k. destruct Hcase as [(-> & -> & -> & ->)|(h & o & -> & -> & -> & -> & _)]; auto.
    intros [<-|Hk].
    + right. eexists. split; [apply in_or_app; right; left; reflexivity|reflexivity].
    + destruct (A11 Hl k Hk) as [H|(p & Hp & E)]; auto. right. exists p. split; [apply in_or_app; auto|auto].
  - intros _. destruct Hcase as [(-> & -> & -> & ->)|(h & o & -> & -> & -> & -> & _)]; auto.
    rewrite app_length, (A12 Hl). cbn. lia.
  - exists []. split; [|cbn; rewrite Hl; reflexivity]. cbn. rewrite app_nil_r in *.
    destruct Hcase as [(-> & -> & -> & ->)|(h & o & -> & -> & -> & -> & _)]; auto.
    rewrite map_app, T1. cbn. reflexivity.
  - intros k. destruct Hcase as [(-> & -> & -> & ->)|(h & o & -> & -> & -> & -> & _)]; auto.
    intros [<-|Hk]; eauto.
  - exact A15.
Qed.

(** A failed upload start: the buffer is taken out, the run is dead. *)
Lemma drop_buf_inv : forall s st x p, (p = PFailed \/ p = PPanicked) -> ainv s -> find_buf (a_bufs s) st = Some x ->
  ainv (mk_astate p (a_next s) (a_free s) (remove_buf (a_bufs s) st) (a_mem s) (a_puts s) (a_inflight s)
          (a_seen s) (a_map s) (a_store s) (a_reads s) (a_started s)).
Proof.
  intros s st [b x] p Hp I Hf. pose proof (with_phase_dead s p Hp I) as I2.
  pose proof (remove_buf_fst s st _ I Hf) as [RN RK].
  pose proof (NoDup_snoc_buf s st b x I Hf) as RP. pose proof (i_pool s I) as PN. rewrite RP in PN.
  pose proof (i_bufs s I) as BN. pose proof (i_buf s I) as BF.
  destruct I2 as [A1 A2 A3 A4 A5 A6 A7 A8 A9 A10 A11 A12 A13 A14 A15].
  constructor; cbn in *; auto.
  - rewrite <- app_assoc in PN. apply NoDup_remove_1 in PN. exact PN.
  - intros st' b' f' H. apply remove_buf_In in H; auto. destruct H as [H _]. now apply BF.
  - intros ->. destruct Hp; discriminate.
Qed.

Lemma start_put_inv : forall s p n d, ainv s -> a_puts s = [] -> good (a_map s) n d -> a_phase s <> p ->
  (a_phase s = PLoop /\ p = PMeta /\ n = META_NAME /\ frozen s \/
   a_phase s = PMeta /\ p = PMapping /\ n = MAPPING_NAME /\ meta_stored s) ->
  ainv (start_put p n d s).
Proof.
  intros s p n d I Hp G Hne Hc. destruct I as [A1 A2 A3 A4 A5 A6 A7 A8 A9 A10 A11 A12 [t [T1 T2]] A14 A15].
  constructor; cbn; auto.
  - intros ->. destruct Hc as [(_ & H & _)|(_ & H & _)]; discriminate.
  - intros q. rewrite !in_app_iff. intros [H|H]; auto.
  - intros q. rewrite in_app_iff. intros [H|[<-|[]]]; auto.
  - intros n' d' H. apply in_or_app. left. auto.
  - intros ->. destruct Hc as [(_ & H & _)|(_ & H & _)]; discriminate.
  - intros ->. destruct Hc as [(_ & H & _)|(_ & H & _)]; discriminate.
  - exists (t ++ [n]). split.
    + cbn. rewrite map_app, T1, app_assoc. reflexivity.
    + cbn. destruct Hc as [(E & -> & -> & F)|(E & -> & -> & M)]; rewrite E in T2.
      * subst t. auto.
      * destruct T2 as [-> F]. auto.
Qed.

(** In the manifest phases the only upload in flight is the manifest's. *)
Definition only_put (s : astate) : Prop :=
  match a_phase s with
  | PMeta => exists p, a_puts s = [p] /\ po_name p = META_NAME
  | PMapping => exists p, a_puts s = [p] /\ po_name p = MAPPING_NAME
  | PDone => a_puts s = []
  | _ => True
  end.

Lemma remove_single : forall {A} i (x p : A), nth_error [x] i = Some p -> p = x /\ remove_nth i [x] = [].
Proof.
  intros A [|i] x p H; cbn in *; [injection H as <-; auto|].
  destruct i; discriminate.
Qed.

Theorem astep_inv : forall s e s', ainv s -> only_put s -> astep P c s e = Some s' -> ainv s' /\ only_put s'.
Proof.
  intros s e s' I O H. destruct e as [|st|st ok|i|i ok| |]; cbn [astep] in H.
  - (* AStart *)
    destruct (a_phase s) eqn:Ep; try discriminate. destruct (a_next s <? ac_count c) eqn:En; [|discriminate].
    destruct (header c (a_next s)) as [h| |] eqn:Eh.
    2,3: injection H as <-; split; [apply with_phase_dead; auto|exact Logic.I].
    assert (Hd := has_data_flag _ _ Eh (proj1 (Nat.ltb_lt _ _) En)).
    destruct (should_be_archived h) eqn:Ea.
    + destruct (a_free s) as [|b free] eqn:Ef; injection H as <-; [auto|].
      split; [|cbn; exact Logic.I].
      pose proof I as I0. destruct I0 as [A1 A2 A3 A4 A5 A6 A7 A8 A9 A10 A11 A12 [t [T1 T2]] A14 [A15 A16]].
      assert (Hnew : ~ In (a_next s) (map fst (a_bufs s))).
      { intros Hin. apply in_map_iff in Hin. destruct Hin as ([k [b' f']] & Ek & Hin). cbn in Ek. subst k.
        apply A3 in Hin. lia. }
      constructor; cbn; auto.
      * rewrite map_app. cbn. rewrite Ef in A1. rewrite app_assoc.
        apply (Permutation.Permutation_NoDup (l := b :: free ++ map buf_of (a_bufs s))); [|exact A1].
        apply Permutation.Permutation_cons_append.
      * rewrite map_app. cbn.
        apply (Permutation.Permutation_NoDup (l := a_next s :: map fst (a_bufs s))); [|constructor; auto].
        apply Permutation.Permutation_cons_append.
      * intros st b' f'. rewrite in_app_iff. intros [Hin|[E|[]]].
        -- apply A3 in Hin. destruct Hin as (X & Y & Z). split; [lia|auto].
        -- injection E as <- <- <-. split; [lia|]. split; [now apply Hd|discriminate].
      * intros _ st Hst Hds. rewrite map_app, in_app_iff. cbn. destruct (Nat.eq_dec st (a_next s)); [auto|].
        destruct (A6 Ep st) as [X|X]; auto. lia.
      * exists t. split; [exact T1|]. cbn. rewrite Ep in T2. exact T2.
      * split.
        -- rewrite map_app. cbn.
           apply (Permutation.Permutation_NoDup (l := a_next s :: map fst (a_reads s))).
           ++ apply Permutation.Permutation_cons_append.
           ++ constructor; auto. intros Hin. apply in_map_iff in Hin. destruct Hin as ([k d] & Ek & Hin). cbn in Ek. subst k.
              apply A16 in Hin. lia.
        -- intros st d. rewrite in_app_iff. intros [Hin|[E|[]]].
           ++ apply A16 in Hin. destruct Hin as (X & Y & Z). split; [lia|auto].
           ++ injection E as <- <-. split; [lia|]. split; [now apply Hd|]. exists h. split; auto. now apply header_some.
    + injection H as <-. split; [|cbn; exact Logic.I].
      destruct I as [A1 A2 A3 A4 A5 A6 A7 A8 A9 A10 A11 A12 [t [T1 T2]] A14 [A15 A16]].
      constructor; cbn; auto.
      * intros st b f Hin. apply A3 in Hin. intuition.
      * intros _ st Hst Hds. destruct (Nat.eq_dec st (a_next s)) as [->|].
        -- apply Hd in Hds. congruence.
        -- apply A6; auto. lia.
      * exists t. split; [exact T1|]. cbn. rewrite Ep in T2. exact T2.
      * split; auto. intros st d Hin. apply A16 in Hin. destruct Hin as (X & Y & Z). split; [lia|auto].
  - (* AFill *)
    destruct (a_phase s) eqn:Ep; try discriminate.
    destruct (find_buf (a_bufs s) st) as [[b [|]]|] eqn:Ef; try discriminate.
    destruct (header c st) as [h| |] eqn:Eh; try discriminate. injection H as <-.
    split; [|cbn; exact Logic.I].
    pose proof (remove_buf_fst s st _ I Ef) as [RN RK].
    pose proof (NoDup_snoc_buf s st b _ I Ef) as RP.
    pose proof I as I0. destruct I0 as [A1 A2 A3 A4 A5 A6 A7 A8 A9 A10 A11 A12 [t [T1 T2]] A14 A15].
    rewrite RP in A1.
    assert (Hb : forall e, In e (remove_buf (a_bufs s) st) -> buf_of e <> b).
    { intros e He E. rewrite <- app_assoc in A1. apply NoDup_remove_2 in A1. apply A1. apply in_or_app. right.
      rewrite <- E. now apply in_map. }
    constructor; cbn; auto.
    + rewrite map_app. cbn. apply (Permutation.Permutation_NoDup (l := (a_free s ++ [b]) ++ map buf_of (remove_buf (a_bufs s) st))); auto.
      rewrite <- app_assoc. apply Permutation.Permutation_app_head. apply Permutation.Permutation_cons_append.
    + rewrite map_app. cbn.
      apply (Permutation.Permutation_NoDup (l := st :: map fst (remove_buf (a_bufs s) st))).
      * apply Permutation.Permutation_cons_append.
      * constructor; auto. rewrite RK. tauto.
    + intros st' b' f'. rewrite in_app_iff. intros [Hin|[E|[]]].
      * pose proof (Hb _ Hin) as Hne. cbn in Hne. apply remove_buf_In in Hin; auto. destruct Hin as [Hin _].
        rewrite upd_neq by auto. now apply A3.
      * injection E as <- <- <-. rewrite upd_eq. apply find_buf_In in Ef. apply A3 in Ef. destruct Ef as (X & Y & _).
        split; auto. split; auto. intros _. now apply stripe_bytes_contents.
    + intros _ st' Hst Hds. rewrite map_app, in_app_iff, RK. cbn.
      destruct (A6 Ep st' Hst Hds); auto. destruct (Nat.eq_dec st' st); auto.
    + exists t. split; [exact T1|]. cbn. rewrite Ep in T2. exact T2.
  - (* AFetched *)
    destruct (a_phase s) eqn:Ep; try discriminate.
    destruct (find_buf (a_bufs s) st) as [[b filled]|] eqn:Ef; try discriminate.
    destruct ok.
    2:{ injection H as <-. split; [apply with_phase_dead; auto|exact Logic.I]. }
    destruct filled; [|discriminate]. injection H as <-.
    assert (O' : only_put (start_upload P c st b s)).
    { unfold start_upload, only_put. destruct (is_zero_stripe _); [cbn; now rewrite Ep|].
      destruct (stripe_object _ _ _ _ _ _); cbn; auto. destruct (seen_key _ _); cbn; now rewrite Ep. }
    split; [|exact O'].
    pose proof (find_buf_In _ _ _ Ef) as Hin. apply (i_buf s I) in Hin. destruct Hin as (Hlt & Hd & Hc).
    specialize (Hc eq_refl). unfold start_upload. rewrite Hc.
    destruct (is_zero_stripe (contents c st)) eqn:Ez.
    + eapply upload_inv; [exact I|exact Ep|exact Ef| |left; auto]. split; cbn; auto.
    + destruct (stripe_object P (ac_cipher c) (ac_comp c) (ac_ssc c) st (contents c st)) as [o| |] eqn:Eo.
      * destruct (seen_key (a_seen s) (object_key (sha P o))) eqn:Es.
        -- apply seen_key_In in Es. eapply upload_inv; [exact I|exact Ep|exact Ef| |left; auto]. split; cbn; auto. split; auto.
           exists o. auto.
        -- assert (Es' : ~ In (object_key (sha P o)) (a_seen s)) by (rewrite <- seen_key_In; congruence).
           eapply upload_inv; [exact I|exact Ep|exact Ef| |].
           ++ split; cbn; auto. split; auto. exists o. auto.
           ++ right. exists (sha P o), o. repeat (split; [reflexivity|]). split; [|exact Es'].
              exists st. auto.
      * eapply drop_buf_inv; eauto.
      * eapply drop_buf_inv; eauto.
  - (* AStored *)
    destruct (nth_error (a_puts s) i) as [p|] eqn:En; [|discriminate]. injection H as <-.
    pose proof (nth_error_In _ _ En) as Hin. split; [now apply stored_inv|].
    unfold only_put in *. cbn. exact O.
  - (* AUploaded *)
    destruct (nth_error (a_puts s) i) as [p|] eqn:En; [|discriminate].
    pose proof (nth_error_In _ _ En) as Hin.
    destruct (a_phase s) eqn:Ep; try discriminate.
    + destruct ok.
      * destruct (a_inflight s) as [|k] eqn:Ei; injection H as <-.
        -- split; [apply with_phase_dead; auto|exact Logic.I].
        -- split; [apply uploaded_inv; auto|]. unfold only_put. cbn. now rewrite Ep.
      * injection H as <-. split; [eapply failed_inv; eauto|exact Logic.I].
    + unfold only_put in O. rewrite Ep in O. destruct O as (q & Eq & Nq). rewrite Eq in En.
      apply remove_single in En. destruct En as [-> Er]. rewrite Nq, bytes_eqb_refl in H.
      assert (En : nth_error (a_puts s) i = Some q).
      { rewrite Eq. destruct i; [reflexivity|]. rewrite Eq in Hin. destruct i; discriminate || auto. }
      destruct ok.
      * destruct (serialize_stripe_mapping P (a_map s) (ac_hmac_key c) (ac_cipher c)) as [b| |] eqn:Es; injection H as <-.
        -- split.
           ++ apply start_put_inv.
              ** rewrite <- Nq. apply uploaded_inv; auto. congruence.
              ** cbn. rewrite Eq. exact Er.
              ** right; right. split; auto.
              ** cbn. congruence.
              ** right. cbn. split; [exact Ep|]. split; [reflexivity|]. split; [reflexivity|].
                 unfold meta_stored. cbn. apply store_put_same.
           ++ unfold only_put. cbn. rewrite Eq, Er. cbn. eauto.
        -- split; [apply with_phase_dead; auto|exact Logic.I].
        -- split; [apply with_phase_dead; auto|exact Logic.I].
      * injection H as <-. split; [eapply failed_inv; eauto|exact Logic.I].
    + unfold only_put in O. rewrite Ep in O. destruct O as (q & Eq & Nq). 
      assert (Hq : p = q /\ remove_nth i (a_puts s) = []).
      { rewrite Eq in *. now apply remove_single. }
      destruct Hq as [-> Er]. rewrite Nq, bytes_eqb_refl in H. destruct ok.
      * injection H as <-. split; [|cbn; exact Er].
        assert (I2 := uploaded_inv s i q (a_inflight s) I En). rewrite Ep in I2.
        specialize (I2 ltac:(discriminate)). rewrite Nq in I2.
        destruct I2 as [A1 A2 A3 A4 A5 A6 A7 A8 A9 A10 A11 A12 [t [T1 T2]] A14 A15].
        constructor; cbn; auto; try discriminate.
        exists t. split; [exact T1|]. cbn in *. rewrite Ep in T2. destruct T2 as (X & Y & Z).
        split; auto. split; auto. split; auto. apply store_put_same.
      * injection H as <-. split; [eapply failed_inv; eauto|exact Logic.I].
  - (* ATimeout *)
    destruct (a_phase s); try discriminate; injection H as <-; (split; [apply with_phase_dead; auto|exact Logic.I]).
  - (* ADrained *)
    destruct (a_phase s) eqn:Ep; try discriminate.
    destruct ((ac_count c <=? a_next s) && _ && (a_inflight s =? 0)) eqn:Eg; [|discriminate].
    apply andb_true_iff in Eg. destruct Eg as [Eg E3]. apply andb_true_iff in Eg. destruct Eg as [E1 E2].
    destruct (a_bufs s) as [|] eqn:Eb; [|discriminate].
    destruct (serialize_stripe_mapping P (a_map s) (ac_hmac_key c) (ac_cipher c)) as [b| |].
    2,3: injection H as <-; split; [apply with_phase_dead; auto|exact Logic.I].
    assert (Ep0 : a_puts s = []).
    { pose proof (i_inflight s I Ep). destruct (a_puts s); [reflexivity|]. cbn in *. lia. }
    assert (F : frozen s).
    { split.
      - intros st Hd. destruct (i_cover s I Ep st) as [X|X]; auto.
        + destruct Hd. lia.
        + rewrite Eb in X. contradiction.
      - intros k Hk. destruct (i_pending s I Ep k Hk) as [X|(p & X & _)]; auto. rewrite Ep0 in X. contradiction. }
    destruct (archive_metadata_of P c) as [m| |] eqn:Em; injection H as <-.
    + split.
      * apply start_put_inv; auto.
        -- right; left. split; eauto.
        -- congruence.
      * unfold only_put. cbn. rewrite Ep0. cbn. eauto.
    + split; [apply with_phase_dead; auto|exact Logic.I].
    + split; [apply with_phase_dead; auto|exact Logic.I].
Qed.

Theorem arun_inv : forall es s s', ainv s -> only_put s -> arun P c s es = Some s' -> ainv s' /\ only_put s'.
Proof.
  induction es as [|e es IH]; intros s s' I O H; cbn in H.
  - injection H as <-. auto.
  - destruct (astep P c s e) eqn:E; [|discriminate]. destruct (astep_inv _ _ _ I O E). eauto.
Qed.

Lemma archiving_inv : forall s, archiving P c s -> ainv s /\ only_put s.
Proof. intros s [es H]. eapply arun_inv; eauto. apply anew_inv. exact Logic.I. Qed.
End Inv.
