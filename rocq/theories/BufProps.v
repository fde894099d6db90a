(** C73: I/O buffers are aligned and in bounds, and a pool never hands out a buffer twice. *)
From Coq Require Import List Arith NArith ZArith Bool Lia Permutation ZifyBool ZifyNat ZifyN.
Import ListNotations.
From Verif Require Import Base BaseFacts ListFacts ConfigModel TuningProps BufModel BufSpec.
Local Open Scope N_scope.

Ltac Zify.zify_post_hook ::= Z.div_mod_to_equations.

(** ** Alignment *)
Lemma offset_aligned : forall ptr align, align <> 0 ->
  (ptr + (align - ptr mod align) mod align) mod align = 0 /\ (align - ptr mod align) mod align < align.
Proof.
  intros ptr align H. pose proof (N.mod_lt ptr align H) as Hm. split; [|apply N.mod_lt; auto].
  rewrite N.add_mod_idemp_r by auto. rewrite (N.div_mod ptr align H) at 1.
  replace (align * (ptr / align) + ptr mod align + (align - ptr mod align)) with ((ptr / align + 1) * align) by nia.
  apply N.mod_mul; auto.
Qed.

Lemma slice_repeat : forall (x : byte) n a b, (a <= b)%nat -> (b <= n)%nat -> slice (repeat x n) a b = Ok (repeat x (b - a)).
Proof.
  intros x n a b H1 H2. unfold slice. rewrite repeat_length.
  replace (Nat.leb a b && Nat.leb b n)%bool with true by lia. f_equal.
  replace n with (a + ((b - a) + (n - b)))%nat by lia. rewrite repeat_app.
  rewrite skipn_app, skipn_all2 by (rewrite repeat_length; lia). rewrite repeat_length, Nat.sub_diag. cbn [skipn app].
  rewrite repeat_app, firstn_app, repeat_length.
  replace (b - a - (b - a))%nat with 0%nat by lia. cbn [firstn]. rewrite app_nil_r. apply firstn_all2. rewrite repeat_length. lia.
Qed.

(** Wherever the allocator puts the storage, a buffer of [len] bytes aligned to a power of
    two starts at a multiple of it, lies within its storage, and is all zeros; accessing it
    does not panic.  Any other alignment is refused. *)
Theorem C73_aligned : forall ptr len align, len + align < 2 ^ 63 ->
  ((exists k, align = 2 ^ k) ->
   exists b, new_with_alignment ptr len align = Ok b /\ ab_ptr b = ptr /\
     exists a, as_ptr b = Ok a /\ a mod align = 0 /\ ptr <= a /\ a + len <= ptr + N.of_nat (List.length (ab_vec b)) /\
     as_slice b = Ok (repeat 0 (N.to_nat len))) /\
  (~ (exists k, align = 2 ^ k) -> new_with_alignment ptr len align = Panic).
Proof.
  intros ptr len align B. split.
  - intros Hk. assert (Hp : is_power_of_two align = true) by now apply pow2_spec.
    assert (Hz : align <> 0). { destruct Hk as (k & ->). apply N.pow_nonzero. lia. }
    destruct (offset_aligned ptr align Hz) as (H1 & H2).
    unfold new_with_alignment. replace (align =? 0) with false by lia. rewrite Hp. cbn [negb orb].
    rewrite N.mod_small by (change (2 ^ 64) with (2 * 2 ^ 63); lia).
    replace (2 ^ 63 <=? len + align) with false by lia.
    eexists. split; [reflexivity|]. split; [reflexivity|].
    unfold as_ptr, as_slice. cbn [ab_vec ab_offset ab_len ab_ptr].
    set (off := (align - ptr mod align) mod align) in *. clearbody off.
    rewrite slice_repeat by lia. cbn [bindr]. exists (ptr + off). split; [reflexivity|]. split; [exact H1|].
    split; [lia|]. split; [rewrite repeat_length; lia|]. f_equal. f_equal. lia.
  - intros Hk. unfold new_with_alignment. destruct (is_power_of_two align) eqn:E.
    + exfalso. apply Hk. now apply pow2_spec.
    + now rewrite orb_true_r.
Qed.

(** Buffers in storage that does not overlap do not overlap. *)
Theorem C73_apart : forall ptr1 ptr2 len align b1 b2 a1 a2, len + align < 2 ^ 63 ->
  new_with_alignment ptr1 len align = Ok b1 -> new_with_alignment ptr2 len align = Ok b2 ->
  apart ptr1 (N.of_nat (List.length (ab_vec b1))) ptr2 (N.of_nat (List.length (ab_vec b2))) ->
  as_ptr b1 = Ok a1 -> as_ptr b2 = Ok a2 -> apart a1 len a2 len.
Proof.
  intros ptr1 ptr2 len align b1 b2 a1 a2 B N1 N2 A E1 E2.
  assert (Hk : exists k, align = 2 ^ k).
  { unfold new_with_alignment in N1. destruct ((align =? 0) || negb (is_power_of_two align)) eqn:E; [discriminate|].
    apply orb_false_iff in E as (_ & E). apply pow2_spec. now destruct (is_power_of_two align). }
  destruct (proj1 (C73_aligned ptr1 len align B) Hk) as (c1 & M1 & P1 & x1 & X1 & _ & L1 & U1 & _).
  destruct (proj1 (C73_aligned ptr2 len align B) Hk) as (c2 & M2 & P2 & x2 & X2 & _ & L2 & U2 & _).
  assert (c1 = b1) by congruence. assert (c2 = b2) by congruence. subst c1 c2.
  assert (x1 = a1) by congruence. assert (x2 = a2) by congruence. subst x1 x2.
  unfold apart in *. lia.
Qed.

(** The alignment the backends choose fits both 4096 and the file system's block size when
    that is a power of two. *)
Theorem C73_alignment_chosen : forall bsize, (exists k, bsize = 2 ^ k) ->
  (exists k, determine_alignment bsize = 2 ^ k) /\
  forall a, a mod determine_alignment bsize = 0 -> a mod 4096 = 0 /\ a mod bsize = 0.
Proof.
  intros bsize (k & ->). unfold determine_alignment, BUFFER_ALIGNMENT. change 4096 with (2 ^ 12).
  assert (D : forall i j a, i <= j -> a mod 2 ^ j = 0 -> a mod 2 ^ i = 0).
  { intros i j a H Ha. apply N.mod_divide in Ha; [|apply N.pow_nonzero; lia]. apply N.mod_divide; [apply N.pow_nonzero; lia|].
    destruct Ha as (c & ->). exists (c * 2 ^ (j - i)). rewrite <- N.mul_assoc, <- N.pow_add_r. f_equal. f_equal. lia. }
  destruct (N.le_ge_cases 12 k) as [H|H].
  - rewrite N.max_r by (apply N.pow_le_mono_r; lia). split; [eauto|]. intros a Ha. split; eauto.
  - rewrite N.max_l by (apply N.pow_le_mono_r; lia). split; [eauto|]. intros a Ha. split; eauto.
Qed.

(** A block size that is not a power of two makes the buffers, and so the start, panic. *)
Theorem C73_refuted_block_size : exists bsize, 4096 <= bsize /\
  forall ptr len, new_with_alignment ptr len (determine_alignment bsize) = Panic.
Proof. exists 12288. split; [lia|]. intros ptr len. reflexivity. Qed.

(** ** The pool *)
Local Open Scope nat_scope.

Definition in_use_at (p : pool) (i : nat) : Prop := nth_error (p_in_use p) i = Some true.

Record pinv (all out : list shared) (p : pool) : Prop := {
  pi_buffers : p_buffers p = all;
  pi_len : List.length (p_in_use p) = List.length all;
  pi_id : forall i b, nth_error all i = Some b -> sh_id b = i;
  pi_avail : forall i, In i (p_available p) <-> nth_error (p_in_use p) i = Some false;
  pi_nodup : NoDup (p_available p);
  pi_out : forall b, In b out <-> (In b all /\ in_use_at p (sh_id b));
  pi_outnd : NoDup out
}.

Lemma set_at : forall {A} (l : list A) i j x, i < List.length l ->
  nth_error (set_nth i x l) j = if i =? j then Some x else nth_error l j.
Proof.
  intros A l i j x H. destruct (Nat.eqb_spec i j) as [<-|N].
  - now apply nth_error_set_nth_eq.
  - now apply nth_error_set_nth_neq.
Qed.

Lemma in_all : forall all b, (forall i b, nth_error all i = Some b -> sh_id b = i) -> In b all ->
  nth_error all (sh_id b) = Some b.
Proof. intros all b H Hb. apply In_nth_error in Hb as (i & Hi). now rewrite (H _ _ Hi). Qed.

Lemma pool_run : forall all cs out p, pinv all out p -> handles_ok all cs ->
  proper all out cs (fst (prun p cs)).
Proof.
  intros all cs. induction cs as [|c cs IH]; intros out p I H; cbn [prun]; [exact Logic.I|].
  assert (H' : handles_ok all cs) by (intros b b' Hb; apply H; now right).
  assert (Lt : forall i x, nth_error (p_in_use p) i = Some x -> i < List.length all).
  { intros i x E. rewrite <- (pi_len _ _ _ I). apply nth_error_Some. congruence. }
  assert (Ha : forall b, In b all -> nth_error all (sh_id b) = Some b) by (intros b; apply in_all, I).
  destruct c as [|b].
  - unfold get_buffer. destruct (p_available p) as [|i rest] eqn:Ea.
    + destruct (prun p cs) as [l q] eqn:Er. cbn [fst]. split.
      * intros b Hb. apply (pi_out _ _ _ I). split; auto. unfold in_use_at.
        assert (Hl : sh_id b < List.length (p_in_use p)).
        { rewrite (pi_len _ _ _ I). apply nth_error_Some. rewrite Ha by auto. discriminate. }
        destruct (nth_error (p_in_use p) (sh_id b)) as [[|]|] eqn:E; auto.
        -- apply (pi_avail _ _ _ I) in E. rewrite Ea in E. contradiction.
        -- apply nth_error_None in E. lia.
      * specialize (IH out p I H'). now rewrite Er in IH.
    + assert (Hi : nth_error (p_in_use p) i = Some false) by (apply (pi_avail _ _ _ I); rewrite Ea; now left).
      assert (Hl := Lt _ _ Hi).
      unfold index. rewrite Hi. cbn [bindr]. rewrite (pi_buffers _ _ _ I).
      destruct (nth_error all i) as [b|] eqn:Eb; [|apply nth_error_None in Eb; lia]. cbn [bindr].
      assert (Hb : In b all) by (eapply nth_error_In; eauto).
      assert (Hid : sh_id b = i) by (apply (pi_id _ _ _ I _ _ Eb)).
      assert (Hno : ~ In b out).
      { intros Ho. apply (pi_out _ _ _ I) in Ho as (_ & Ho). unfold in_use_at in Ho. rewrite Hid in Ho. congruence. }
      assert (Hli : i < List.length (p_in_use p)) by (rewrite (pi_len _ _ _ I); lia).
      assert (ND := pi_nodup _ _ _ I). rewrite Ea in ND. inversion ND as [|? ? Nin ND']; subst.
      set (p' := mk_pool all rest (set_nth (sh_id b) true (p_in_use p))).
      assert (I' : pinv all (b :: out) p').
      { constructor; cbn [p_buffers p_available p_in_use p']; auto.
        - rewrite set_nth_length. apply I.
        - apply I.
        - intros j. rewrite set_at by auto. destruct (Nat.eqb_spec (sh_id b) j) as [<-|N].
          + split; [contradiction|discriminate].
          + rewrite <- (pi_avail _ _ _ I), Ea. cbn. intuition congruence.
        - intros b'. unfold in_use_at. cbn [p_in_use p']. rewrite set_at by auto. cbn [In]. split.
          + intros [<-|Ho]; [now rewrite Nat.eqb_refl|]. apply (pi_out _ _ _ I) in Ho as (Ho1 & Ho2). split; auto.
            destruct (sh_id b =? sh_id b'); auto.
          + intros (Ho1 & Ho2). destruct (Nat.eqb_spec (sh_id b) (sh_id b')) as [E|N].
            * left. apply Ha in Ho1. rewrite <- E in Ho1. congruence.
            * right. apply (pi_out _ _ _ I). auto.
        - constructor; auto. apply I. }
      specialize (IH _ _ I' H'). destruct (prun p' cs) as [l q]. cbn [fst] in *. cbn. auto.
  - unfold return_buffer. rewrite (pi_buffers _ _ _ I).
    destruct (Nat.ltb_spec (sh_id b) (List.length all)) as [Hl|Hl]; cbn [negb].
    2:{ cbn. intros Ho. apply (pi_out _ _ _ I) in Ho as (Ho & _). apply Ha in Ho.
        assert (sh_id b < List.length all) by (apply nth_error_Some; congruence). lia. }
    assert (Hli : sh_id b < List.length (p_in_use p)) by (rewrite (pi_len _ _ _ I); lia).
    unfold index. destruct (nth_error (p_in_use p) (sh_id b)) as [u|] eqn:Eu; [|apply nth_error_None in Eu; lia].
    cbn [bindr]. destruct u; cbn [negb].
    2:{ cbn. intros Ho. apply (pi_out _ _ _ I) in Ho as (_ & Ho). unfold in_use_at in Ho. congruence. }
    destruct (nth_error all (sh_id b)) as [own|] eqn:Eo; [|apply nth_error_None in Eo; lia]. cbn [bindr].
    assert (Hown : In own all) by (eapply nth_error_In; eauto).
    destruct (Nat.eqb_spec (sh_arc b) (sh_arc own)) as [Earc|Narc]; cbn [negb].
    2:{ cbn. intros Ho. apply (pi_out _ _ _ I) in Ho as (Ho & _). apply Ha in Ho. congruence. }
    assert (b = own) by (apply (H b own); auto; now left). subst own.
    assert (Hout : In b out) by (apply (pi_out _ _ _ I); auto).
    destruct (in_split _ _ Hout) as (before & after & Es).
    assert (ND := pi_outnd _ _ _ I). rewrite Es in ND. apply NoDup_remove in ND as (ND & Nin).
    set (p' := mk_pool all (p_available p ++ [sh_id b]) (set_nth (sh_id b) false (p_in_use p))).
    assert (I' : pinv all (before ++ after) p').
    { constructor; cbn [p_buffers p_available p_in_use p']; auto.
      - rewrite set_nth_length. apply I.
      - apply I.
      - intros j. rewrite set_at by auto. rewrite in_app_iff, (pi_avail _ _ _ I). cbn [In].
        destruct (Nat.eqb_spec (sh_id b) j) as [<-|N]; intuition congruence.
      - apply (Permutation_NoDup (Permutation_cons_append _ _)). constructor; [|apply I].
        rewrite (pi_avail _ _ _ I). congruence.
      - intros b'. unfold in_use_at. cbn [p_in_use p']. rewrite set_at by auto.
        assert (Hb' : In b' out <-> b' = b \/ In b' (before ++ after)).
        { rewrite Es, !in_app_iff. cbn [In]. intuition congruence. }
        destruct (Nat.eqb_spec (sh_id b) (sh_id b')) as [E|N].
        + split; [|intros (_ & X); discriminate]. intros Hi. exfalso.
          assert (Hi' : In b' out) by (apply Hb'; auto). apply (pi_out _ _ _ I) in Hi' as (Hi' & _). apply Ha in Hi'.
          rewrite <- E, Eo in Hi'. injection Hi' as <-. contradiction.
        + rewrite <- (pi_out _ _ _ I b'), Hb'. split; auto. intros [->|]; [congruence|auto]. }
    specialize (IH _ _ I' H'). destruct (prun p' cs) as [l q]. cbn [fst] in *. cbn. split; auto.
    exists before, after. auto.
Qed.

Lemma nth_combine_seq : forall (arcs : list nat) k i x,
  nth_error (map (fun '(i, a) => mk_shared a i) (combine (seq k (List.length arcs)) arcs)) i = Some x ->
  sh_id x = k + i /\ nth_error arcs i = Some (sh_arc x).
Proof.
  induction arcs as [|a arcs IH]; intros k i x H; cbn in H; [now destruct i|].
  destruct i as [|i]; cbn in *; [injection H as <-; cbn; auto|].
  apply IH in H as (-> & H). split; auto. lia.
Qed.

Lemma nth_repeat_false : forall n i, nth_error (repeat false n) i = if i <? n then Some false else None.
Proof.
  induction n as [|n IH]; intros [|i]; cbn [repeat nth_error]; auto. rewrite IH. reflexivity.
Qed.

Lemma new_pool_inv : forall arcs, pinv (p_buffers (new_pool arcs)) [] (new_pool arcs).
Proof.
  intros arcs. constructor; auto.
  - cbn. rewrite repeat_length, map_length, combine_length, seq_length. lia.
  - intros i b H. cbn in H. now apply nth_combine_seq in H as (-> & _).
  - intros i. cbn. rewrite in_seq, nth_repeat_false. destruct (Nat.ltb_spec i (List.length arcs)); split; intros; try lia; auto; discriminate.
  - cbn. apply seq_NoDup.
  - intros b. cbn. split; [contradiction|]. intros (_ & H). unfold in_use_at in H. cbn in H.
    rewrite nth_repeat_false in H. destruct (_ <? _); discriminate.
  - constructor.
Qed.

(** Whatever the sequence of gets and returns, also of buffers that were already returned or
    belong to someone else, the pool behaves properly: it never hands out a buffer that is
    still out, and runs dry only when all its buffers are. *)
Theorem C73_pool : forall arcs cs, handles_ok (p_buffers (new_pool arcs)) cs ->
  proper (p_buffers (new_pool arcs)) [] cs (fst (prun (new_pool arcs) cs)).
Proof. intros arcs cs H. apply pool_run; auto. apply new_pool_inv. Qed.

(** The pool has as many buffers as were asked for, each in an allocation of its own. *)
Theorem C73_pool_buffers : forall arcs, map sh_arc (p_buffers (new_pool arcs)) = arcs.
Proof.
  intros arcs. cbn. generalize 0. induction arcs as [|a arcs IH]; intros k; cbn; auto. now rewrite IH.
Qed.

(** ** The theorems apply *)
Example C73_aligned_nonvacuous :
  exists b, new_with_alignment 5000 1024 4096 = Ok b /\ as_ptr b = Ok 8192%N /\ N.of_nat (List.length (ab_vec b)) = 5120%N /\
    as_slice b = Ok (repeat 0%N 1024) /\ new_with_alignment 5000 1024 3000 = Panic.
Proof. eexists. split; [vm_compute; reflexivity|]. repeat split; vm_compute; reflexivity. Qed.

Example C73_pool_nonvacuous :
  let b i := mk_shared (10 + i) i in
  let cs := [PGet; PGet; PGet; PReturn (b 1); PGet; PReturn (b 0); PReturn (b 0)] in
  handles_ok (p_buffers (new_pool [10; 11])) cs /\
  fst (prun (new_pool [10; 11]) cs) =
    [AGot (Some (b 0)); AGot (Some (b 1)); AGot None; AReturned; AGot (Some (b 1)); AReturned; APanic].
Proof.
  split; [|reflexivity]. intros b b' Hb [<-|[<-|[]]] E; cbn in E;
    repeat (destruct Hb as [Hb|Hb]; [try discriminate Hb; injection Hb as <-; cbn in E; discriminate E || reflexivity|]); contradiction.
Qed.

(** A buffer of someone else is refused. *)
Example C73_foreign : fst (prun (new_pool [10; 11]) [PGet; PReturn (mk_shared 99 0)]) = [AGot (Some (mk_shared 10 0)); APanic].
Proof. reflexivity. Qed.

Print Assumptions C73_aligned.
Print Assumptions C73_apart.
Print Assumptions C73_alignment_chosen.
Print Assumptions C73_refuted_block_size.
Print Assumptions C73_pool.
Print Assumptions C73_pool_buffers.
