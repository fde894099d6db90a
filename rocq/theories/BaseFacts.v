(** Lemmas about [Base]. *)
From Coq Require Import List NArith ZArith Bool Lia ZifyBool ZifyNat ZifyN.
From Verif Require Import Base.
Import ListNotations.
Local Open Scope N_scope.
Ltac Zify.zify_post_hook ::= Z.div_mod_to_equations.

Lemma le_bytes_length : forall n x, length (le_bytes n x) = n.
Proof. induction n; intros x; cbn [le_bytes length]; [reflexivity|now rewrite IHn]. Qed.

Lemma le_bytes_ok : forall n x, bytes_ok (le_bytes n x).
Proof.
  induction n; intros x; cbn [le_bytes]; constructor.
  - unfold byte_ok. apply N.mod_lt. lia.
  - apply IHn.
Qed.

Lemma le_val_le_bytes : forall n x, x < 256 ^ N.of_nat n -> le_val (le_bytes n x) = x.
Proof.
  induction n; intros x Hx; cbn [le_bytes le_val].
  - cbn in Hx. lia.
  - rewrite IHn.
    + pose proof (N.div_mod x 256). lia.
    + replace (256 ^ N.of_nat (S n)) with (256 * 256 ^ N.of_nat n) in Hx.
      * apply N.div_lt_upper_bound; lia.
      * rewrite <- N.pow_succ_r by lia. f_equal. lia.
Qed.

Lemma le_val_bound : forall l, bytes_ok l -> le_val l < 256 ^ N.of_nat (length l).
Proof.
  induction l as [|b l IH]; intros H; cbn [le_val length].
  - cbn. lia.
  - inversion H as [|? ? Hb Hl]; subst. specialize (IH Hl). unfold byte_ok in Hb.
    replace (256 ^ N.of_nat (S (length l))) with (256 * 256 ^ N.of_nat (length l)).
    + lia.
    + rewrite <- N.pow_succ_r by lia. f_equal. lia.
Qed.

Lemma le_bytes_le_val : forall l, bytes_ok l -> le_bytes (length l) (le_val l) = l.
Proof.
  induction l as [|b l IH]; intros H; cbn [le_val length le_bytes].
  - reflexivity.
  - inversion H as [|? ? Hb Hl]; subst. unfold byte_ok in Hb.
    f_equal.
    + lia.
    + replace ((b + 256 * le_val l) / 256) with (le_val l) by lia. auto.
Qed.

Lemma le_val_inj : forall a b, bytes_ok a -> bytes_ok b -> length a = length b ->
  le_val a = le_val b -> a = b.
Proof.
  intros a b Ha Hb Hl He.
  rewrite <- (le_bytes_le_val a Ha), <- (le_bytes_le_val b Hb), Hl, He. reflexivity.
Qed.

Lemma le_val_app : forall a b, le_val (a ++ b) = le_val a + 256 ^ N.of_nat (length a) * le_val b.
Proof.
  induction a as [|x a IH]; intros b; cbn [app le_val length].
  - cbn [N.of_nat]. rewrite N.pow_0_r. lia.
  - rewrite IH. replace (N.of_nat (S (length a))) with (N.succ (N.of_nat (length a))) by lia.
    rewrite N.pow_succ_r by lia. lia.
Qed.

Lemma le_bytes_inj : forall n x y, x < 256 ^ N.of_nat n -> y < 256 ^ N.of_nat n ->
  le_bytes n x = le_bytes n y -> x = y.
Proof.
  intros n x y Hx Hy H. rewrite <- (le_val_le_bytes n x Hx), <- (le_val_le_bytes n y Hy), H.
  reflexivity.
Qed.

Lemma bytes_eqb_spec : forall a b, bytes_eqb a b = true <-> a = b.
Proof.
  induction a as [|x a IH]; intros [|y b]; cbn [bytes_eqb]; split; intros H;
    try discriminate; try reflexivity.
  - apply andb_true_iff in H. destruct H as [H1 H2].
    apply N.eqb_eq in H1. apply IH in H2. now subst.
  - inversion H; subst. apply andb_true_iff. split; [apply N.eqb_refl|now apply IH].
Qed.

Lemma bytes_eqb_refl : forall a, bytes_eqb a a = true.
Proof. intros a. now apply bytes_eqb_spec. Qed.

Lemma slice_ok : forall {A} (l : list A) a b,
  (a <= b)%nat -> (b <= length l)%nat -> slice l a b = Ok (firstn (b - a) (skipn a l)).
Proof.
  intros A l a b H1 H2. unfold slice.
  apply Nat.leb_le in H1. apply Nat.leb_le in H2. now rewrite H1, H2.
Qed.

Lemma index_ok : forall {A} (l : list A) i d, (i < length l)%nat -> index l i = Ok (nth i l d).
Proof.
  intros A l i d H. unfold index. rewrite (nth_error_nth' l d H). reflexivity.
Qed.

Lemma splice_length : forall {A} (l : list A) i n,
  (i + length n <= length l)%nat -> length (splice l i n) = length l.
Proof.
  intros A l i n H. unfold splice. rewrite !app_length, firstn_length, skipn_length. lia.
Qed.

Lemma set_nth_length : forall {A} i (x : A) l, length (set_nth i x l) = length l.
Proof. induction i; intros x [|y l]; cbn; auto. Qed.

Lemma nth_set_nth_eq : forall {A} i (x : A) l d, (i < length l)%nat -> nth i (set_nth i x l) d = x.
Proof. induction i; intros x [|y l] d H; cbn in *; try lia; auto. apply IHi. lia. Qed.

Lemma nth_set_nth_neq : forall {A} i j (x : A) l d, i <> j -> nth j (set_nth i x l) d = nth j l d.
Proof.
  induction i; intros [|j] x [|y l] d H; cbn; auto; try congruence.
Qed.

Lemma nth_error_set_nth_eq : forall {A} i (x : A) l, (i < length l)%nat ->
  nth_error (set_nth i x l) i = Some x.
Proof. induction i; intros x [|y l] H; cbn in *; try lia; auto. apply IHi. lia. Qed.

Lemma nth_error_set_nth_neq : forall {A} i j (x : A) l, i <> j ->
  nth_error (set_nth i x l) j = nth_error l j.
Proof. induction i; intros [|j] x [|y l] H; cbn; auto; try congruence. Qed.

Lemma set_nth_same : forall {A} i (x : A) l, nth_error l i = Some x -> set_nth i x l = l.
Proof.
  induction i; intros x [|y l] H; cbn in *; try congruence.
  f_equal. auto.
Qed.

Lemma bytes_ok_app : forall a b, bytes_ok (a ++ b) <-> bytes_ok a /\ bytes_ok b.
Proof. intros a b. unfold bytes_ok. apply Forall_app. Qed.

Lemma bytes_ok_firstn : forall n l, bytes_ok l -> bytes_ok (firstn n l).
Proof.
  intros n l H. unfold bytes_ok in *. rewrite Forall_forall in *. intros x Hx. apply H.
  rewrite <- (firstn_skipn n l). apply in_or_app. auto.
Qed.

Lemma bytes_ok_skipn : forall n l, bytes_ok l -> bytes_ok (skipn n l).
Proof.
  intros n l H. unfold bytes_ok in *. rewrite Forall_forall in *. intros x Hx. apply H.
  rewrite <- (firstn_skipn n l). apply in_or_app. auto.
Qed.

Lemma bytes_ok_repeat : forall n b, byte_ok b -> bytes_ok (repeat b n).
Proof. intros n b H. induction n; cbn; constructor; auto. Qed.

Lemma firstn_app_exact : forall {A} (a b : list A) n, length a = n -> firstn n (a ++ b) = a.
Proof.
  intros A a b n H. subst n. rewrite firstn_app, Nat.sub_diag, firstn_all. cbn. apply app_nil_r.
Qed.

Lemma skipn_app_exact : forall {A} (a b : list A) n, length a = n -> skipn n (a ++ b) = b.
Proof.
  intros A a b n H. subst n. rewrite skipn_app, Nat.sub_diag, skipn_all. reflexivity.
Qed.

Lemma upd_eq : forall {A} (f : nat -> A) k v, upd f k v k = v.
Proof. intros. unfold upd. now rewrite Nat.eqb_refl. Qed.

Lemma upd_neq : forall {A} (f : nat -> A) k v x, x <> k -> upd f k v x = f x.
Proof. intros A f k v x H. unfold upd. now apply Nat.eqb_neq in H; rewrite H. Qed.

Lemma Ok_inj : forall {A} (a b : A), Ok a = Ok b -> a = b.
Proof. intros A a b H. congruence. Qed.
