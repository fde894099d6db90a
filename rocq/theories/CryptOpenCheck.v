(** Deciding the contracts of C81 and C82 by computation, for examples: the requests of a
    run have serial numbers below a bound. *)
From Coq Require Import List Arith NArith Bool Lia.
Import ListNotations.
From Verif Require Import Base BaseFacts DiskSpec CryptModel CryptOpenModel CryptOpenSpec SyncModel UringDiskModel UringDiskSpec.

Section Check.
Context {V : Type}.
Variable bound : nat.

Definition clash (b : nat) (o : option nat) : bool := match o with Some b' => b' =? b | None => false end.
Lemma clash_no b o : clash b o = false -> o <> Some b.
Proof. intros H ->. cbn in H. now rewrite Nat.eqb_refl in H. Qed.

(** *** The encrypting device *)
Section Crypt.
Variable enc dec : nat -> V -> V.
Definition free_b (s : kdev V) (b : nat) : bool :=
  forallb (fun n => match k_ops s n with Some o => negb (clash b (buffer_in (ko_what o))) | None => true end) (seq 0 bound).
Definition buffers_b (s : kdev V) (e : kevent V) : bool :=
  match e with
  | KFill b _ => free_b s b
  | KRead n _ _ _ cnt b | KWrite n _ _ _ cnt b => (n <? bound) && free_b s b && (cnt <=? length (k_mem s b))
  | KFlush n _ _ => n <? bound
  | _ => true
  end.
Fixpoint all_buffers_b (s : kdev V) (es : list (kevent V)) : bool :=
  match es with
  | [] => true
  | e :: r => buffers_b s e && match kstep enc dec s e with Some (s1, _, _) => all_buffers_b s1 r | None => true end
  end.

Definition kbelow (s : kdev V) : Prop := forall n, bound <= n -> k_ops s n = None.

Lemma free_sound s b : kbelow s -> free_b s b = true -> free_buffer s b.
Proof.
  intros B H n o E. unfold free_b in H. rewrite forallb_forall in H.
  assert (Hn : n < bound) by (destruct (Nat.lt_ge_cases n bound) as [|Hge]; auto; rewrite (B _ Hge) in E; discriminate E).
  specialize (H n). rewrite E in H. apply clash_no. apply negb_true_iff. apply H. apply in_seq. lia.
Qed.

Lemma kbelow_step s e s' g b : kbelow s -> buffers_b s e = true -> kstep enc dec s e = Some (s', g, b) -> kbelow s'.
Proof.
  intros B H E. intros m Hm. assert (N0 := B m Hm). destruct e as [bb data|n q id off cnt bb|n q id off cnt bb|n q id|n ok data|]; cbn [kstep buffers_b] in *.
  - injection E as <- _ _. exact N0.
  - rewrite !andb_true_iff, Nat.ltb_lt in H. injection E as <- _ _. cbn [k_ops]. rewrite upd_neq; auto. lia.
  - rewrite !andb_true_iff, Nat.ltb_lt in H. destruct (defined _); [|discriminate]. destruct (crypt_loop _ _ _ _ _).
    + destruct (defined _); [|discriminate]. injection E as <- _ _. cbn [k_ops]. rewrite upd_neq; auto. lia.
    + injection E as <- _ _. exact N0.
    + injection E as <- _ _. exact N0.
  - apply Nat.ltb_lt in H. injection E as <- _ _. cbn [set_op k_ops]. rewrite upd_neq; auto. lia.
  - destruct (k_ops s n) as [[q id w]|] eqn:En; [|discriminate]. injection E as <- _ _.
    assert (X : forall t, k_ops (kpoll dec q id ok t) = k_ops t).
    { intros t. unfold kpoll. destruct (k_reads t q id); [|auto]. destruct ok; [|auto]. destruct (crypt_loop _ _ _ _ _); auto. }
    rewrite X. assert (Y : forall t, k_ops (received w ok data t) = k_ops t) by (intros t; unfold received; destruct w; auto; destruct ok; auto).
    rewrite Y. cbn [set_op k_ops]. unfold upd. destruct (m =? n); auto.
  - injection E as <- _ _. reflexivity.
Qed.

Lemma all_buffers_sound : forall es s, kbelow s -> all_buffers_b s es = true -> all_buffers_ok enc dec s es.
Proof.
  induction es as [|e es IH]; intros s B H; [exact I|]. cbn [all_buffers_b all_buffers_ok] in *. apply andb_true_iff in H as [H1 H2]. split.
  - destruct e; cbn [buffers_b buffers_ok] in *; auto; rewrite ?andb_true_iff, ?Nat.leb_le in H1; intuition auto using free_sound.
  - destruct (kstep enc dec s e) as [[[s1 g] b]|] eqn:E; auto. apply IH; auto. eapply kbelow_step; eauto.
Qed.
End Crypt.

(** *** The io_uring device *)
Section Uring.
Variable us : N.
Variable per : nat.
Variable readonly osync : bool.
Variable entries nsec : nat.
Definition unused_b (s : fdev V) (b : nat) : bool :=
  forallb (fun n => match f_op s n with Some o => negb (clash b (buffer_of (f_what o))) | None => true end) (seq 0 bound).
Definition caller_b (s : fdev V) (e : fevent V) : bool :=
  match e with
  | FFill b _ => unused_b s b
  | FRead n _ _ soff cnt b | FWrite n _ _ soff cnt b =>
    (n <? bound) && (unused_b s b && ((soff + cnt <=? nsec) && ((N.of_nat cnt <? 2 ^ 23)%N && (cnt * per <=? length (f_mem s b)))))
  | FFlush n _ _ => n <? bound
  | _ => true
  end.
Fixpoint calls_b (s : fdev V) (es : list (fevent V)) : bool :=
  match es with
  | [] => true
  | e :: r => caller_b s e && match fstep us per readonly osync entries s e with Some (s1, _) => calls_b s1 r | None => true end
  end.

Definition fbelow (s : fdev V) : Prop := forall n, bound <= n -> f_op s n = None.

Lemma unused_sound s b : fbelow s -> unused_b s b = true -> unused s b.
Proof.
  intros B H n o E. unfold unused_b in H. rewrite forallb_forall in H.
  assert (Hn : n < bound) by (destruct (Nat.lt_ge_cases n bound) as [|Hge]; auto; rewrite (B _ Hge) in E; discriminate E).
  specialize (H n). rewrite E in H. apply clash_no. apply negb_true_iff. apply H. apply in_seq. lia.
Qed.

Lemma fbelow_report : forall l (s : fdev V), fbelow s -> fbelow (fst (report_all l s)).
Proof.
  induction l as [|n l IH]; intros s B; [exact B|]. cbn [report_all]. specialize (IH (forget n s)).
  destruct (report_all l (forget n s)) as [s' t]. apply IH. intros m Hm. cbn [forget f_op]. unfold upd. destruct (m =? n); auto.
Qed.

Lemma fbelow_step s e s' t : fbelow s -> caller_b s e = true -> fstep us per readonly osync entries s e = Some (s', t) -> fbelow s'.
Proof.
  intros B H E. destruct e as [bb data|n q id soff cnt bb|n q id soff cnt bb|n q id|q k|n i|n r|q|sv]; cbn [fstep caller_b] in *.
  - injection E as <- _. exact B.
  - apply andb_true_iff in H as [H _]. apply Nat.ltb_lt in H. destruct (f_used s n); [discriminate|]. injection E as <- _.
    intros m Hm. unfold push. destruct (_ <? _); cbn [f_op]; rewrite upd_neq by lia; auto.
  - apply andb_true_iff in H as [H _]. apply Nat.ltb_lt in H. destruct (f_used s n); [discriminate|]. injection E as <- _.
    intros m Hm. unfold push. destruct (_ <? _); cbn [f_op]; rewrite upd_neq by lia; auto.
  - apply Nat.ltb_lt in H. destruct (f_used s n); [discriminate|]. destruct osync; injection E as <- _;
    intros m Hm; unfold push; try destruct (_ <? _); cbn [f_op]; rewrite upd_neq by lia; auto.
  - injection E as <- _. intros m Hm. cbn [f_op]. rewrite (B m Hm). destruct (is_in _ _); auto.
  - assert (Hn : forall o, f_op s n = Some o -> forall o' m, bound <= m -> upd (f_op s) n (Some o') m = None).
    { intros o Eo o' m Hm. rewrite upd_neq; auto. intros ->. rewrite (B _ Hm) in Eo. discriminate. }
    destruct (f_op s n) as [[q id [off ln b|off ln b|] [|mv si|]]|]; try discriminate.
    + destruct (cur_cell _); [|discriminate]. destruct (_ && _ && _); [|discriminate]. injection E as <- _. intros m Hm. cbn [f_op]. eauto.
    + destruct (nth_error _ _); [|discriminate]. destruct (_ && _ && _); [|discriminate]. injection E as <- _. intros m Hm. cbn [f_op]. eauto.
  - assert (Hn : forall o, f_op s n = Some o -> forall o' m, bound <= m -> upd (f_op s) n (Some o') m = None).
    { intros o Eo o' m Hm. rewrite upd_neq; auto. intros ->. rewrite (B _ Hm) in Eo. discriminate. }
    destruct (f_op s n) as [[q id w [|mv si|]]|]; try discriminate. destruct (possible w mv r); [|discriminate].
    injection E as <- _. intros m Hm. cbn [f_op]. eauto.
  - match type of E with context [report_all ?l ?s] => pose proof (fbelow_report l s) as X; destruct (report_all l s) as [s1 t1] end.
    injection E as <- _. apply X. exact B.
  - injection E as <- _. intros m Hm. reflexivity.
Qed.

Lemma calls_sound : forall es s, fbelow s -> calls_b s es = true -> calls_ok us per readonly osync entries nsec s es.
Proof.
  induction es as [|e es IH]; intros s B H; [exact I|]. cbn [calls_b calls_ok] in *. apply andb_true_iff in H as [H1 H2]. split.
  - destruct e; cbn [caller_b caller_ok] in *; auto using unused_sound; rewrite !andb_true_iff, !Nat.leb_le, N.ltb_lt in H1;
      intuition auto using unused_sound.
  - destruct (fstep us per readonly osync entries s e) as [[s1 t]|] eqn:E; auto. apply IH; auto. eapply fbelow_step; eauto.
Qed.
End Uring.
End Check.
