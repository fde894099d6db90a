From Coq Require Import List Arith NArith Bool Lia ZifyBool ZifyNat ZifyN.
Import ListNotations.
From Verif Require Import Base BaseFacts DiskSpec CryptModel SyncModel MetadataModel StackModel TailSpec.

Lemma some_pair {A B} (a c : A) (b d : B) : Some (a, b) = Some (c, d) -> a = c /\ b = d.
Proof. intros H. now injection H. Qed.

Section Tail.
Context {V : Type}.
Variables (ro osync : bool) (L : nat).
Hypothesis HL : (N.of_nat L < 2 ^ 55)%N.
Notation step := (@sstep V 512 1 ro osync).
Notation run := (@srun V 512 1 ro osync).

(** Whatever was asked for under the serial [n] lies within the file. *)
Definition inside (tr : list (titem V)) (n : nat) : Prop :=
  forall q id off cnt, In (TIssue n q id (RRead off cnt)) tr -> 0 < cnt -> (N.of_nat off < 2 ^ 55)%N -> off + cnt <= L.

Definition going_ok (tr : list (titem V)) (n : nat) (g : going V) : Prop :=
  match g with
  | GRead off buf pos => off + length buf <= L -> inside tr n
  | GWrite _ _ _ _ => False
  | GSync _ => inside tr n
  end.

Record inv (s : sdev V) (tr : list (titem V)) : Prop := {
  i_len : s_len s = L;
  i_going : forall q n id g, ch_going (s_chan s q) = Some (n, id, g) -> s_used s n = true /\ going_ok tr n g;
  i_fin : forall q n id ok d, In (n, id, ok, d) (ch_finished (s_chan s q)) -> s_used s n = true /\ (ok = true -> inside tr n);
  i_done : forall n q id ok d, In (TDone n q id ok d) tr -> s_used s n = true /\ (ok = true -> inside tr n);
  i_used : forall n q id r, In (TIssue n q id r) tr -> s_used s n = true }.

Lemma inside_more : forall tr t n, (forall q id off cnt, ~ In (TIssue n q id (RRead off cnt)) t) -> inside tr n -> inside (tr ++ t) n.
Proof. intros tr t n F H q id off cnt Hi. apply in_app_iff in Hi as [Hi|Hi]; [exact (H q id off cnt Hi)|]. exfalso. exact (F _ _ _ _ Hi). Qed.

Lemma going_more : forall tr t n g, (forall q id off cnt, ~ In (TIssue n q id (RRead off cnt)) t) -> going_ok tr n g -> going_ok (tr ++ t) n g.
Proof. intros tr t n [off buf pos|off data pos c|since] F H; cbn in *; auto using inside_more. Qed.

(** A request begins. *)
Lemma inv_begins : forall s tr q n id g r, inv s tr -> s_used s n = false ->
  (going_ok (tr ++ [TIssue n q id r]) n g) -> (match g with GRead _ [] _ | GWrite _ [] _ _ => inside (tr ++ [TIssue n q id r]) n | _ => True end) ->
  inv (begins q n id g s) (tr ++ [TIssue n q id r]).
Proof.
  intros s tr q n id g r I Hu Hg He.
  assert (Fr : forall n', s_used s n' = true -> forall q0 id0 off cnt, ~ In (TIssue n' q0 id0 (RRead off cnt)) [TIssue n q id r]).
  { intros n' U q0 id0 off cnt [E|[]]. injection E as <- _ _ _. congruence. }
  assert (Us : forall n', s_used s n' = true -> upd (s_used s) n true n' = true).
  { intros n' U. unfold upd. destruct (n' =? n); auto. }
  assert (Un : upd (s_used s) n true n = true) by (unfold upd; now rewrite Nat.eqb_refl).
  assert (Go : forall q0 n0 id0 g0, ch_going (s_chan s q0) = Some (n0, id0, g0) -> upd (s_used s) n true n0 = true /\ going_ok (tr ++ [TIssue n q id r]) n0 g0).
  { intros q0 n0 id0 g0 E. destruct (i_going _ _ I _ _ _ _ E). split; [auto|]. apply going_more; auto. }
  assert (Fi : forall q0 n0 id0 ok d, In (n0, id0, ok, d) (ch_finished (s_chan s q0)) -> upd (s_used s) n true n0 = true /\ (ok = true -> inside (tr ++ [TIssue n q id r]) n0)).
  { intros q0 n0 id0 ok d E. destruct (i_fin _ _ I _ _ _ _ _ E). split; [auto|]. intros. apply inside_more; auto. }
  assert (Do : forall n0 q0 id0 ok d, In (TDone n0 q0 id0 ok d) (tr ++ [TIssue n q id r]) -> upd (s_used s) n true n0 = true /\ (ok = true -> inside (tr ++ [TIssue n q id r]) n0)).
  { intros n0 q0 id0 ok d E. apply in_app_iff in E as [E|[E|[]]]; [|discriminate E]. destruct (i_done _ _ I _ _ _ _ _ E). split; [auto|]. intros. apply inside_more; auto. }
  assert (Is : forall n0 q0 id0 r0, In (TIssue n0 q0 id0 r0) (tr ++ [TIssue n q id r]) -> upd (s_used s) n true n0 = true).
  { intros n0 q0 id0 r0 E. apply in_app_iff in E as [E|[E|[]]]; [apply Us; exact (i_used _ _ I _ _ _ _ E)|]. injection E as <- _ _ _. exact Un. }
  assert (H1 : inv (set_chan q (mk_chan (Some (n, id, g)) (ch_finished (s_chan s q)))
     (mk_sdev (s_chan s) (upd (s_used s) n true) (s_cell s) (s_len s) (s_now s) (s_panic s))) (tr ++ [TIssue n q id r])).
  { constructor; cbn; auto; [exact (i_len _ _ I)| |].
    - intros q0 n0 id0 g0 E. unfold upd at 1 in E. destruct (q0 =? q); [|exact (Go _ _ _ _ E)]. cbn in E. injection E as <- <- <-. auto.
    - intros q0 n0 id0 ok d E. unfold upd at 1 in E. destruct (q0 =? q); [|exact (Fi _ _ _ _ _ E)]. cbn in E. exact (Fi _ _ _ _ _ E). }
  assert (H2 : inside (tr ++ [TIssue n q id r]) n -> inv (ends q n id true []
     (mk_sdev (s_chan s) (upd (s_used s) n true) (s_cell s) (s_len s) (s_now s) (s_panic s))) (tr ++ [TIssue n q id r])).
  { intros In_. constructor; cbn; auto; [exact (i_len _ _ I)| |].
    - intros q0 n0 id0 g0 E. unfold upd at 1 in E. destruct (q0 =? q); [discriminate E|exact (Go _ _ _ _ E)].
    - intros q0 n0 id0 ok d E. unfold upd at 1 in E. destruct (q0 =? q); [|exact (Fi _ _ _ _ _ E)]. cbn in E. apply in_app_iff in E as [E|[E|[]]]; [exact (Fi _ _ _ _ _ E)|].
      injection E as <- <- <- <-. auto. }
  unfold begins. destruct g as [off [|b buf] pos|off [|b data] pos c|since]; auto.
Qed.

(** The call on channel [q] goes on, or ends. *)
Lemma inv_goes : forall s tr q n id g g' f, inv s tr -> ch_going (s_chan s q) = Some (n, id, g) -> going_ok tr n g' ->
  inv (set_chan q (mk_chan (Some (n, id, g')) (ch_finished (s_chan s q))) (set_cells f (s_len s) s)) tr.
Proof.
  intros s tr q n id g g' f I E G. destruct (i_going _ _ I _ _ _ _ E) as (U & _). constructor; cbn.
  - exact (i_len _ _ I).
  - intros q0 n0 id0 g0 E0. unfold upd in E0. destruct (q0 =? q); [|exact (i_going _ _ I _ _ _ _ E0)]. cbn in E0. injection E0 as <- <- <-. auto.
  - intros q0 n0 id0 ok d E0. unfold upd in E0. destruct (q0 =? q); [|exact (i_fin _ _ I _ _ _ _ _ E0)]. cbn in E0. exact (i_fin _ _ I _ _ _ _ _ E0).
  - exact (i_done _ _ I).
  - exact (i_used _ _ I).
Qed.

Lemma inv_ends : forall s tr q n id g f ok d, inv s tr -> ch_going (s_chan s q) = Some (n, id, g) -> (ok = true -> inside tr n) ->
  inv (ends q n id ok d (set_cells f (s_len s) s)) tr.
Proof.
  intros s tr q n id g f ok d I E G. destruct (i_going _ _ I _ _ _ _ E) as (U & _). constructor; cbn.
  - exact (i_len _ _ I).
  - intros q0 n0 id0 g0 E0. unfold upd in E0. destruct (q0 =? q); [discriminate E0|exact (i_going _ _ I _ _ _ _ E0)].
  - intros q0 n0 id0 ok0 d0 E0. unfold upd in E0. destruct (q0 =? q); [|exact (i_fin _ _ I _ _ _ _ _ E0)]. cbn in E0. apply in_app_iff in E0 as [E0|[E0|[]]]; [exact (i_fin _ _ I _ _ _ _ _ E0)|].
    injection E0 as <- <- <- <-. auto.
  - exact (i_done _ _ I).
  - exact (i_used _ _ I).
Qed.

Lemma inv_same : forall s tr q, inv s tr -> inv (set_chan q (s_chan s q) s) tr.
Proof.
  intros s tr q I. assert (E : forall q0, upd (s_chan s) q (s_chan s q) q0 = s_chan s q0).
  { intros q0. unfold upd. destruct (Nat.eqb_spec q0 q); congruence. }
  constructor; cbn.
  - exact (i_len _ _ I).
  - intros q0 n id g H. rewrite E in H. exact (i_going _ _ I _ _ _ _ H).
  - intros q0 n id ok d H. rewrite E in H. exact (i_fin _ _ I _ _ _ _ _ H).
  - exact (i_done _ _ I).
  - exact (i_used _ _ I).
Qed.

Lemma same_cells : forall s : sdev V, set_cells (s_cell s) (s_len s) s = s.
Proof. now intros []. Qed.

Lemma fetch_length : forall f k off l, fetch f off k = Some l -> @length V l = k.
Proof.
  induction k as [|k IH]; intros off l H; cbn in H; [now injection H as <-|].
  destruct (cur_cell (f off)); [|discriminate]. destruct (fetch f (S off) k) eqn:E; [|discriminate]. injection H as <-. cbn. f_equal. exact (IH _ _ E).
Qed.

Lemma inv_step : forall s tr e s' t, inv s tr -> no_write e -> step s e = Some (s', t) -> inv s' (tr ++ t).
Proof.
  intros s tr e s' t I W H. unfold sstep in H. destruct (s_panic s); [discriminate H|].
  destruct e as [n q id soff scnt buf|n q id soff scnt buf|n q id|q k|q o|q|survivor].
  - destruct (s_used s n || _) eqn:U in H; [discriminate H|]. apply orb_false_iff in U as (U & _). destruct (length buf <? scnt * 1) eqn:B in H.
    { apply some_pair in H as (<- & <-). rewrite app_nil_r. destruct I; constructor; auto. }
    apply some_pair in H as (<- & <-). apply Nat.ltb_ge in B. rewrite !Nat.mul_1_r in *.
    assert (Lb : length (firstn scnt buf) = scnt) by (rewrite firstn_length; lia).
    assert (G : going_ok (tr ++ [TIssue n q id (RRead soff scnt)]) n (GRead (unit_offset 512 soff) (firstn scnt buf) 0)).
    { cbn [going_ok]. rewrite Lb. intros Le q0 id0 off cnt E Pc Po. apply in_app_iff in E as [E|[E|[]]]; [rewrite (i_used _ _ I _ _ _ _ E) in U; discriminate U|].
      injection E as _ _ <- <-. unfold unit_offset, byte_offset in Le. rewrite N.mod_small in Le by lia. rewrite N.div_mul in Le by lia. lia. }
    apply inv_begins; auto. destruct (firstn scnt buf) eqn:Ef; [|exact Logic.I].
    intros q0 id0 off cnt E Pc Po. apply in_app_iff in E as [E|[E|[]]]; [rewrite (i_used _ _ I _ _ _ _ E) in U; discriminate U|].
    injection E as _ _ <- <-. cbn in Lb. lia.
  - destruct W.
  - destruct (s_used s n || _) eqn:U in H; [discriminate H|]. apply orb_false_iff in U as (U & _). apply some_pair in H as (<- & <-). apply inv_begins; auto.
    cbn. intros q0 id0 off cnt E. apply in_app_iff in E as [E|[E|[]]]; [rewrite (i_used _ _ I _ _ _ _ E) in U; discriminate U|discriminate E].
  - destruct (ch_going (s_chan s q)) as [[[n id] [| |]]|] eqn:E; try discriminate H. destruct (i_going _ _ I _ _ _ _ E) as (_ & []).
  - destruct (ch_going (s_chan s q)) as [[[n id] g]|] eqn:E; [|discriminate H]. pose proof (proj2 (i_going _ _ I _ _ _ _ E)) as G.
    destruct g as [off buf pos|off data pos c|since]; [|destruct G|].
    + destruct o as [[|k]| |].
      * apply some_pair in H as (<- & <-). rewrite app_nil_r, <- (same_cells s). eapply inv_ends; [exact I|exact E|discriminate].
      * destruct ((length buf <? pos + S k) || (s_len s <? off + pos + S k)) eqn:C; [discriminate H|]. apply orb_false_iff in C as (C1 & C2). apply Nat.ltb_ge in C1, C2.
        destruct (fetch (s_cell s) (off + pos) (S k)) as [l|] eqn:F; [|discriminate H]. apply fetch_length in F.
        assert (Lf : length (fill buf pos l) = length buf) by (unfold fill; rewrite !app_length, firstn_length, skipn_length; lia).
        rewrite (i_len _ _ I) in C2. destruct (Nat.eqb_spec (pos + S k) (length buf)); apply some_pair in H as (<- & <-); rewrite app_nil_r.
        -- rewrite <- (same_cells s). eapply inv_ends; [exact I|exact E|]. intros _. apply G. lia.
        -- assert (X : going_ok tr n (GRead off (fill buf pos l) (pos + S k))) by (cbn [going_ok]; now rewrite Lf).
           pose proof (inv_goes s tr q n id _ _ (s_cell s) I E X) as Y. now rewrite same_cells in Y.
      * apply some_pair in H as (<- & <-). rewrite app_nil_r. exact (inv_same _ _ _ I).
      * apply some_pair in H as (<- & <-). rewrite app_nil_r, <- (same_cells s). eapply inv_ends; [exact I|exact E|discriminate].
    + destruct o as [[|k]| |]; try discriminate H; apply some_pair in H as (<- & <-); rewrite app_nil_r.
      * eapply inv_ends; [exact I|exact E|]. auto.
      * exact (inv_same _ _ _ I).
      * rewrite <- (same_cells s). eapply inv_ends; [exact I|exact E|discriminate].
  - destruct (is_some _); [discriminate H|]. apply some_pair in H as (<- & <-).
    assert (Fr : forall n' q0 id0 off cnt, ~ In (@TIssue V n' q0 id0 (RRead off cnt)) (map (fun '(n, id, ok, data) => TDone n q id ok (map Some data)) (ch_finished (s_chan s q)))).
    { intros n' q0 id0 off cnt E. apply in_map_iff in E as ((((n1 & id1) & ok1) & d1) & E & _). discriminate E. }
    constructor; cbn.
    + exact (i_len _ _ I).
    + intros q0 n0 id0 g0 E0. unfold upd in E0. destruct (q0 =? q); [discriminate E0|]. destruct (i_going _ _ I _ _ _ _ E0). auto using going_more.
    + intros q0 n0 id0 ok d E0. unfold upd in E0. destruct (q0 =? q); [destruct E0|]. destruct (i_fin _ _ I _ _ _ _ _ E0). auto using inside_more.
    + intros n0 q0 id0 ok d E0. apply in_app_iff in E0 as [E0|E0]; [destruct (i_done _ _ I _ _ _ _ _ E0); auto using inside_more|].
      apply in_map_iff in E0 as ((((n1 & id1) & ok1) & d1) & E0 & Hi). injection E0 as -> _ -> -> _. destruct (i_fin _ _ I _ _ _ _ _ Hi). auto using inside_more.
    + intros n0 q0 id0 r0 E0. apply in_app_iff in E0 as [E0|E0]; [exact (i_used _ _ I _ _ _ _ E0)|].
      apply in_map_iff in E0 as ((((n1 & id1) & ok1) & d1) & E0 & _). discriminate E0.
  - apply some_pair in H as (<- & <-). assert (Fr : forall n' q0 id0 off cnt, ~ In (@TIssue V n' q0 id0 (RRead off cnt)) [TCrash]) by (intros ? ? ? ? ? [E|[]]; discriminate E).
    constructor; cbn; try discriminate; try contradiction.
    + exact (i_len _ _ I).
    + intros n0 q0 id0 ok d E0. apply in_app_iff in E0 as [E0|[E0|[]]]; [|discriminate E0]. destruct (i_done _ _ I _ _ _ _ _ E0); auto using inside_more.
    + intros n0 q0 id0 r0 E0. apply in_app_iff in E0 as [E0|[E0|[]]]; [|discriminate E0]. exact (i_used _ _ I _ _ _ _ E0).
Qed.

Lemma inv_run : forall es s tr s' t, inv s tr -> Forall no_write es -> run s es = Some (s', t) -> inv s' (tr ++ t).
Proof.
  induction es as [|e es IH]; intros s tr s' t I W H; cbn in H.
  - injection H as <- <-. now rewrite app_nil_r.
  - inversion W as [|? ? W1 W2]; subst. destruct (step s e) as [[s1 t1]|] eqn:E; [|discriminate H]. destruct (run s1 es) as [[s2 t2]|] eqn:E2; [|discriminate H]. injection H as <- <-.
    rewrite app_assoc. exact (IH _ _ _ _ (inv_step _ _ _ _ _ I W1 E) W2 E2).
Qed.

(** A read that ends successfully lies within the file. *)
Lemma read_inside : forall contents es s tr n q id off cnt q' id' d,
  run (new_sdev L contents) es = Some (s, tr) -> Forall no_write es ->
  In (TIssue n q id (RRead off cnt)) tr -> 0 < cnt -> (N.of_nat off < 2 ^ 55)%N -> In (TDone n q' id' true d) tr -> off + cnt <= L.
Proof.
  intros contents es s tr n q id off cnt q' id' d H W Hi Pc Po Hd.
  assert (I0 : inv (new_sdev L contents) []) by (constructor; cbn; try discriminate; try contradiction; reflexivity).
  pose proof (inv_run _ _ _ _ _ I0 W H) as I. cbn [app] in I. exact (proj2 (i_done _ _ I _ _ _ _ _ Hd) eq_refl q id off cnt Hi Pc Po).
Qed.

End Tail.
