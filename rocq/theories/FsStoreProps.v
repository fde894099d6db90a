(** C64: the object store in a directory. *)
From Coq Require Import String.
From Coq Require Import List Arith NArith Bool Lia ZifyBool ZifyNat ZifyN.
From Verif Require Import Base BaseFacts StoreModel FsStoreModel FsStoreSpec.
From Verif Require ArchiveModel.
Import ListNotations.

Lemma path_eqb_spec : forall a b, path_eqb a b = true <-> a = b.
Proof.
  induction a as [|x a IH]; intros [|y b]; cbn; split; intros H; try discriminate; auto.
  - apply andb_true_iff in H as [H1 H2]. apply bytes_eqb_spec in H1. apply IH in H2. now subst.
  - injection H as <- <-. apply andb_true_iff. split; [now apply bytes_eqb_spec|now apply IH].
Qed.
Lemma fs_set_eq : forall p n f, fs_set p n f p = Some n.
Proof. intros. unfold fs_set. now rewrite (proj2 (path_eqb_spec p p) eq_refl). Qed.
Lemma fs_set_neq : forall p q n f, q <> p -> fs_set p n f q = f q.
Proof. intros p q n f H. unfold fs_set. destruct (path_eqb q p) eqn:E; [|reflexivity]. apply path_eqb_spec in E. contradiction. Qed.
Lemma path_dec : forall a b : path, a = b \/ a <> b.
Proof. intros a b. destruct (path_eqb a b) eqn:E; [left; now apply path_eqb_spec|right]. intros H. apply path_eqb_spec in H. congruence. Qed.

(** *** Names *)

Lemma split_no_slash : forall c, ~ In SLASH c -> split_slash c = [c].
Proof.
  induction c as [|b c IH]; intros H; [reflexivity|]. cbn [split_slash]. rewrite IH by (intros Hi; apply H; now right).
  destruct (N.eqb_spec b SLASH) as [->|N]; [exfalso; apply H; now left|reflexivity].
Qed.

Lemma split_join_cons : forall c r, ~ In SLASH c -> split_slash (c ++ SLASH :: r) = c :: split_slash r.
Proof.
  induction c as [|b c IH]; intros r H.
  - cbn [app split_slash]. destruct (split_slash r) eqn:E; [|reflexivity]. exfalso.
    destruct r; [discriminate|]. cbn in E. destruct (split_slash r); [discriminate|]. destruct (n =? SLASH)%N; discriminate.
  - cbn [app split_slash]. rewrite IH by (intros Hi; apply H; now right).
    destruct (N.eqb_spec b SLASH) as [->|N]; [exfalso; apply H; now left|reflexivity].
Qed.

Lemma split_join : forall cs, cs <> [] -> Forall plain_comp cs -> split_slash (join cs) = cs.
Proof.
  induction cs as [|c cs IH]; intros Hn Hp; [contradiction|]. inversion Hp as [|? ? (P1 & P2 & _) Hp']; subst.
  destruct cs as [|c' cs].
  - now apply split_no_slash.
  - change (join (c :: c' :: cs)) with (c ++ SLASH :: join (c' :: cs)). rewrite split_join_cons by exact P2.
    f_equal. apply IH; [discriminate|exact Hp'].
Qed.

Lemma follow_plain : forall p c, plain_comp c -> follow p c = p ++ [c].
Proof.
  intros p c (H1 & _ & H2 & H3). unfold follow.
  destruct (bytes_eqb c []) eqn:E1; [apply bytes_eqb_spec in E1; contradiction|].
  destruct (bytes_eqb c [DOT]) eqn:E2; [apply bytes_eqb_spec in E2; contradiction|].
  destruct (bytes_eqb c [DOT; DOT]) eqn:E3; [apply bytes_eqb_spec in E3; contradiction|]. reflexivity.
Qed.

Lemma follow_all : forall cs p, Forall plain_comp cs -> fold_left follow cs p = p ++ cs.
Proof.
  induction cs as [|c cs IH]; intros p H; cbn [fold_left]; [now rewrite app_nil_r|].
  inversion H; subst. rewrite follow_plain, IH by assumption. now rewrite <- app_assoc.
Qed.

(** A plain name stays inside the directory, at the place it spells. *)
Theorem C64_plain_names_stay_inside : forall base name cs, plain name cs -> locate base name = base ++ cs.
Proof.
  intros base name cs (E & Hn & Hp). assert (Hs := split_join cs Hn Hp). rewrite <- E in Hs. unfold locate.
  destruct cs as [|c cs]; [contradiction|]. inversion Hp as [|? ? (P1 & P2 & _) _]; subst.
  destruct c as [|b c]; [contradiction|].
  assert (Hj : join ((b :: c) :: cs) = b :: (match cs with [] => c | _ => c ++ SLASH :: join cs end)) by now destruct cs.
  rewrite Hj at 1. destruct (N.eqb_spec b SLASH) as [->|N]; [exfalso; apply P2; now left|].
  rewrite Hs. apply follow_all. exact Hp.
Qed.

(** All the names under which archives are stored are plain. *)
Theorem C64_archive_names_plain : forall h,
  plain ArchiveModel.META_NAME [ArchiveModel.META_NAME] /\
  plain ArchiveModel.MAPPING_NAME [ArchiveModel.MAPPING_NAME] /\
  (h <> [] -> plain (ArchiveModel.object_key h) [ArchiveModel.ascii_bytes "data"; ArchiveModel.hex h]).
Proof.
  assert (D : forall l, forallb (fun b => negb (b =? SLASH)%N) l = true -> ~ In SLASH l).
  { intros l H Hi. rewrite forallb_forall in H. apply H in Hi. rewrite N.eqb_refl in Hi. discriminate. }
  intros h. split; [|split].
  - split; [reflexivity|]. split; [discriminate|]. constructor; [|constructor].
    repeat split; try discriminate. apply D. reflexivity.
  - split; [reflexivity|]. split; [discriminate|]. constructor; [|constructor].
    repeat split; try discriminate. apply D. reflexivity.
  - intros Hn. split; [reflexivity|]. split; [discriminate|]. constructor; [|constructor; [|constructor]].
    + repeat split; try discriminate. apply D. reflexivity.
    + assert (G : forall d, (48 <= ArchiveModel.hexdigit d)%N).
      { intros d. unfold ArchiveModel.hexdigit. destruct (d <? 10)%N; lia. }
      assert (A : Forall (fun b => (48 <= b)%N) (ArchiveModel.hex h)).
      { apply Forall_forall. intros x Hx. apply in_flat_map in Hx as (y & _ & [<-|[<-|[]]]); apply G. }
      rewrite Forall_forall in A. destruct h as [|b h]; [contradiction|].
      assert (G1 := G (b / 16)%N).
      repeat split.
      * discriminate.
      * intros Hi. apply A in Hi. vm_compute in Hi. congruence.
      * intros E. assert (Hi : In DOT (ArchiveModel.hex (b :: h))) by (rewrite E; now left).
        apply A in Hi. vm_compute in Hi. congruence.
      * intros E. assert (Hi : In DOT (ArchiveModel.hex (b :: h))) by (rewrite E; now left).
        apply A in Hi. vm_compute in Hi. congruence.
Qed.

(** *** Files *)

Lemma prefix_cases : forall (a b c d : path), a ++ b = c ++ d -> length a <= length c -> exists e, c = a ++ e /\ b = e ++ d.
Proof.
  induction a as [|x a IH]; intros b c d E L; [now exists c|]. destruct c as [|y c]; [cbn in L; lia|].
  injection E as <- E. cbn in L. destruct (IH b c d E) as (e & -> & ->); [lia|]. now exists e.
Qed.

Lemma make_dirs_spec : forall todo done i f f' ok, make_dirs done todo i f = (f', ok) ->
  (forall q, f' q = f q \/ (f q = None /\ f' q = Some NDir /\ exists r, done ++ todo = q ++ r)) /\
  (ok = true -> forall q r, done ++ todo = q ++ r -> length done <= length q -> f' q = Some NDir) /\
  (i = IoOk -> (forall q r, done ++ todo = q ++ r -> length done <= length q -> forall d, f q <> Some (NFile d)) -> ok = true).
Proof.
  induction todo as [|c todo IH]; intros done i f f' ok E.
  - assert (E' : match f done with
                 | Some (NFile _) => (f, false)
                 | Some NDir => (f, true)
                 | None => match i with IoOk => (fs_set done NDir f, true) | IoFail O => (f, false) | IoFail (S _) => (fs_set done NDir f, true) end
                 end = (f', ok)).
    { cbn [make_dirs] in E. destruct (f done) as [[|d]|]; [exact E|exact E|]. destruct i as [|[|n]]; exact E. }
    clear E. rewrite app_nil_r.
    assert (Q : forall q r, done = q ++ r -> length done <= length q -> q = done).
    { intros q r H L. destruct r as [|x r]; [now rewrite app_nil_r in H|]. rewrite H, app_length in L. cbn in L. lia. }
    assert (X : forall q, fs_set done NDir f q = f q \/ q = done).
    { intros q. destruct (path_dec q done) as [->|N]; [now right|]. left. now apply fs_set_neq. }
    destruct (f done) as [[|d]|] eqn:Ed.
    + injection E' as <- <-. split; [now left|]. split; [|reflexivity]. intros _ q r H L. now rewrite (Q q r H L).
    + injection E' as <- <-. split; [now left|]. split; [discriminate|]. intros _ H. exfalso. apply (H done [] (eq_sym (app_nil_r _)) (Nat.le_refl _) d Ed).
    + assert (M : (f', ok) = (f, false) /\ i <> IoOk \/ (f', ok) = (fs_set done NDir f, true)).
      { destruct i as [|[|n]]; [now right|left; split; [now rewrite E'|discriminate]|now right]. }
      clear E'. destruct M as [[M Hi]|M]; injection M as -> ->.
      * split; [now left|]. split; [discriminate|]. intros Hx. contradiction.
      * split; [|split; [|reflexivity]].
        -- intros q. destruct (X q) as [Hx| ->]; [now left|]. right. rewrite fs_set_eq. repeat split; auto. exists []. now rewrite app_nil_r.
        -- intros _ q r H L. rewrite (Q q r H L). apply fs_set_eq.
  - assert (E' : match f done with
                 | Some (NFile _) => (f, false)
                 | Some NDir => make_dirs (done ++ [c]) todo i f
                 | None => match i with
                           | IoOk => make_dirs (done ++ [c]) todo IoOk (fs_set done NDir f)
                           | IoFail O => (f, false)
                           | IoFail (S n) => make_dirs (done ++ [c]) todo (IoFail n) (fs_set done NDir f)
                           end
                 end = (f', ok)).
    { cbn [make_dirs] in E. destruct (f done) as [[|d]|]; [exact E|exact E|]. destruct i as [|[|n]]; exact E. }
    clear E.
    assert (M : (f', ok) = (f, false) /\ (i <> IoOk \/ exists d, f done = Some (NFile d)) \/
      exists i' f1, make_dirs (done ++ [c]) todo i' f1 = (f', ok) /\ (i = IoOk -> i' = IoOk) /\
        (f1 = f /\ f done = Some NDir \/ f1 = fs_set done NDir f /\ f done = None)).
    { destruct (f done) as [[|d]|] eqn:Ed.
      - right. exists i, f. repeat split; auto.
      - left. split; [now rewrite E'|]. right. now exists d.
      - destruct i as [|[|n]].
        + right. exists IoOk, (fs_set done NDir f). repeat split; auto.
        + left. split; [now rewrite E'|]. left. discriminate.
        + right. exists (IoFail n), (fs_set done NDir f). split; [exact E'|]. split; [discriminate|]. right. now split. }
    clear E'. destruct M as [[M Hm]|(i' & f1 & Em & Hi & Hf)].
    + injection M as -> ->. split; [now left|]. split; [discriminate|]. intros -> H. exfalso.
      destruct Hm as [Hm|[d Hm]]; [contradiction|]. apply (H done (c :: todo) eq_refl (Nat.le_refl _) d Hm).
    + destruct (IH _ _ _ _ _ Em) as (I1 & I2 & I3). rewrite <- app_assoc in I1, I2, I3. cbn [app] in I1, I2, I3.
      assert (L1 : length (done ++ [c]) = S (length done)) by (rewrite app_length; cbn; lia). rewrite L1 in I2, I3.
      assert (F1 : f1 done = Some NDir) by (destruct Hf as [[-> H]|[-> _]]; [exact H|apply fs_set_eq]).
      assert (F2 : forall q, q <> done -> f1 q = f q) by (intros q N; destruct Hf as [[-> _]|[-> _]]; [reflexivity|now apply fs_set_neq]).
      assert (F3 : f' done = Some NDir) by (destruct (I1 done) as [H|(H & _)]; congruence).
      assert (Q : forall q r, done ++ c :: todo = q ++ r -> length done <= length q -> q = done \/ S (length done) <= length q).
      { intros q r H L. destruct (Nat.eq_dec (length q) (length done)) as [El|Nl]; [left|right; lia].
        destruct (prefix_cases done (c :: todo) q r H L) as (e & -> & _). rewrite app_length in El.
        destruct e; [now rewrite app_nil_r|cbn in El; lia]. }
      split; [|split].
      * intros q. destruct (path_dec q done) as [->|N].
        -- destruct Hf as [[-> H]|[-> H]]; [left; congruence|right]. repeat split; auto. now exists (c :: todo).
        -- destruct (I1 q) as [H|(H & H')]; rewrite F2 in H by exact N; [now left|right; now split].
      * intros Ho q r H L. destruct (Q q r H L) as [->|L']; [exact F3|]. now apply (I2 Ho q r).
      * intros Ho H. apply I3; [now apply Hi|]. intros q r Hq L d. destruct (path_dec q done) as [->|N]; [congruence|].
        rewrite F2 by exact N. apply (H q r Hq). lia.
Qed.

Lemma write_file_spec : forall p data i f f' ok, write_file p data i f = (f', ok) ->
  (forall q, q <> p -> f' q = f q) /\
  (ok = true -> f' p = Some (NFile data)) /\
  (ok = false -> f' p = f p \/ exists n, f' p = Some (NFile (firstn n data))) /\
  (f p = Some NDir -> f' p = Some NDir) /\
  (i = IoOk -> p <> [] -> f p <> Some NDir -> f (removelast p) = Some NDir -> ok = true).
Proof.
  intros p data i f f' ok E.
  assert (M : (f', ok) = (f, false) /\ (i = IoOk -> p <> [] -> f p <> Some NDir -> f (removelast p) = Some NDir -> False) \/
    f p <> Some NDir /\ ((f', ok) = (fs_set p (NFile data) f, true) \/ exists n, (f', ok) = (fs_set p (NFile (firstn n data)) f, false) /\ i <> IoOk)).
  { unfold write_file in E. destruct p as [|c p]; [left; split; [now rewrite E|]; intros _ H; now contradict H|].
    destruct (f (c :: p)) as [[|d]|]; [left; split; [now rewrite E|]; congruence| |];
    (destruct (f (removelast (c :: p))) as [[|d']|]; [|left; split; [now rewrite E|discriminate]|left; split; [now rewrite E|discriminate]];
     destruct i as [|[|n]]; [right; split; [discriminate|]; left; now rewrite E|left; split; [now rewrite E|discriminate]|
       right; split; [discriminate|]; right; exists n; split; [now rewrite E|discriminate]]). }
  destruct M as [[M H]|[Hd [M|(n & M & H)]]]; injection M as -> ->.
  - split; [reflexivity|]. split; [discriminate|]. split; [now left|]. split; [auto|]. intros. exfalso. auto.
  - split; [intros; now apply fs_set_neq|]. split; [intros _; apply fs_set_eq|]. split; [discriminate|]. split; [contradiction|reflexivity].
  - split; [intros; now apply fs_set_neq|]. split; [discriminate|]. split; [intros _; right; exists n; apply fs_set_eq|].
    split; [contradiction|]. intros. contradiction.
Qed.

(** A put changes files only at its own place, and makes directories only out of
    nothing, on the way there. *)
Lemma try_put_spec : forall base name data i1 i2 f f' ok, try_put base name data i1 i2 f = (f', ok) ->
  let p := locate base name in
  (forall q, q <> p -> f' q = f q \/ (f q = None /\ f' q = Some NDir /\ exists r, p = q ++ r)) /\
  (ok = true -> f' p = Some (NFile data)) /\
  (ok = false -> f' p = f p \/ (f p = None /\ f' p = Some NDir) \/ exists n, f' p = Some (NFile (firstn n data))) /\
  (f p = Some NDir -> f' p = Some NDir).
Proof.
  intros base name data i1 i2 f f' ok E p. unfold try_put in E. fold p in E.
  destruct (create_dir_all (removelast p) i1 f) as [f1 ok1] eqn:Ec. unfold create_dir_all in Ec.
  destruct (make_dirs_spec _ _ _ _ _ _ Ec) as (D1 & D2 & _). cbn [app length] in D1, D2.
  assert (Hr : forall q r, removelast p = q ++ r -> exists r', p = q ++ r').
  { intros q r H. destruct p as [|c p0]; [exists []; now destruct q|].
    rewrite (app_removelast_last [] (l := c :: p0)) by discriminate. rewrite H, <- app_assoc. eauto. }
  destruct ok1.
  - destruct (write_file_spec _ _ _ _ _ _ E) as (W1 & W2 & W3 & W4 & _).
    split; [|split; [exact W2|split]].
    + intros q N. rewrite (W1 q N). destruct (D1 q) as [H|(H1 & H2 & r & H3)]; [now left|right]. repeat split; auto. now apply (Hr q r).
    + intros Ho. destruct (W3 Ho) as [H|H]; [|auto]. rewrite H. destruct (D1 p) as [H'|(H1 & H2 & _)]; auto.
    + intros Hd. apply W4. destruct (D1 p) as [H|(H1 & _)]; congruence.
  - injection E as <- <-. split; [|split; [discriminate|split]].
    + intros q N. destruct (D1 q) as [H|(H1 & H2 & r & H3)]; [now left|right]. repeat split; auto. now apply (Hr q r).
    + intros _. destruct (D1 p) as [H'|(H1 & H2 & _)]; auto.
    + intros Hd. destruct (D1 p) as [H|(H1 & _)]; congruence.
Qed.

Lemma fs_run_app : forall base cs1 cs2 s, fst (fs_run base s (cs1 ++ cs2)) = fst (fs_run base (fst (fs_run base s cs1)) cs2).
Proof.
  induction cs1 as [|c cs1 IH]; intros cs2 s; [reflexivity|]. cbn [app fs_run].
  destruct (fs_step base s c) as [s1 r1]. specialize (IH cs2 s1).
  destruct (fs_run base s1 (cs1 ++ cs2)) as [s2 r2]. destruct (fs_run base s1 cs1) as [s3 r3]. exact IH.
Qed.

Lemma fs_run_snoc : forall base cs c s, fst (fs_run base s (cs ++ [c])) = fst (fs_step base (fst (fs_run base s cs)) c).
Proof.
  intros. rewrite fs_run_app. cbn [fs_run]. now destruct (fs_step base (fst (fs_run base s cs)) c).
Qed.

(** A file stays as it is as long as nothing is put there. *)
Lemma file_stays : forall base p d cs s, f_fs s p = Some (NFile d) -> (forall c, In c cs -> ~ is_put_to base p c) ->
  f_fs (fst (fs_run base s cs)) p = Some (NFile d).
Proof.
  intros base p d. induction cs as [|c cs IH]; intros s Hf Hn; [exact Hf|]. cbn [fs_run].
  destruct (fs_step base s c) as [s1 r1] eqn:Es. destruct (fs_run base s1 cs) as [s2 r2] eqn:Er.
  change s2 with (fst (s2, r2)). rewrite <- Er. apply IH; [|intros c' Hc; apply Hn; now right].
  destruct c as [name data i1 i2|name i| |]; cbn [fs_step] in Es; try (injection Es as <- <-; exact Hf).
  destruct (try_put base name data i1 i2 (f_fs s)) as [f1 ok] eqn:Ep. injection Es as <- <-. cbn [f_fs].
  destruct (try_put_spec _ _ _ _ _ _ _ _ Ep) as (P1 & _).
  destruct (P1 p) as [->|(H & _)]; [|exact Hf|congruence].
  intros ->. apply (Hn (FPut name data i1 i2)); [now left|]. now exists name, data, i1, i2.
Qed.

(** After a put that was reported as successful, a get of the object returns exactly
    what was put, however many other puts (successful or not) and gets came between:
    as long as none of them put the same object. *)
Theorem C64_read_back : forall base s cs1 name data i1 i2 cs2,
  let s1 := fst (fs_run base s cs1) in
  let s2 := fst (fs_step base s1 (FPut name data i1 i2)) in
  let s3 := fst (fs_run base s2 cs2) in
  f_puts s2 = f_puts s1 ++ [(name, true)] ->
  (forall c, In c cs2 -> ~ is_put_to base (locate base name) c) ->
  f_gets (fst (fs_step base s3 (FGet name IoOk))) = f_gets s3 ++ [(name, Some data)] /\
  forall n, f_gets (fst (fs_step base s3 (FGet name (IoFail n)))) = f_gets s3 ++ [(name, None)].
Proof.
  intros base s cs1 name data i1 i2 cs2 s1 s2 s3 Hp Hn.
  assert (F : f_fs s3 (locate base name) = Some (NFile data)).
  { apply file_stays; [|exact Hn]. unfold s2 in *. cbn [fs_step] in *.
    destruct (try_put base name data i1 i2 (f_fs s1)) as [f1 ok] eqn:Ep. cbn [fst f_puts f_fs] in *.
    apply app_inv_head in Hp. injection Hp as ->. destruct (try_put_spec _ _ _ _ _ _ _ _ Ep) as (_ & P2 & _). now apply P2. }
  cbn [fs_step fst f_gets]. unfold try_get, read_file. rewrite F. split; [reflexivity|]. intros n. reflexivity.
Qed.

(** What a get returns was put there, if it was not there before: by the last put of
    this object that was reported as successful, or in part by one that was reported
    as failed after it. *)
Theorem C64_nothing_invented : forall base cs s name d,
  try_get base name IoOk (f_fs (fst (fs_run base s cs))) = Some d ->
  f_fs s (locate base name) = Some (NFile d) \/
  exists cs1 name' data i1 i2 cs2 ok, cs = cs1 ++ FPut name' data i1 i2 :: cs2 /\
    locate base name' = locate base name /\
    reported base (fst (fs_run base s cs1)) (FPut name' data i1 i2) name' ok /\
    (if ok then d = data else exists n, d = firstn n data) /\
    (forall a n' d' j1 j2 b, cs2 = a ++ FPut n' d' j1 j2 :: b -> locate base n' = locate base name ->
       reported base (fst (fs_run base s (cs1 ++ FPut name' data i1 i2 :: a))) (FPut n' d' j1 j2) n' false).
Proof.
  intros base cs. induction cs as [|c cs IH] using rev_ind; intros s name d H.
  - left. unfold try_get, read_file in H. cbn in H. destruct (f_fs s (locate base name)) as [[|x]|]; congruence.
  - rewrite fs_run_snoc in H. set (s1 := fst (fs_run base s cs)) in *.
    assert (K : try_get base name IoOk (f_fs s1) = Some d ->
      (forall n' d' j1 j2, c = FPut n' d' j1 j2 -> locate base n' = locate base name -> reported base s1 c n' false) ->
      f_fs s (locate base name) = Some (NFile d) \/
      exists cs1 name' data i1 i2 cs2 ok, cs ++ [c] = cs1 ++ FPut name' data i1 i2 :: cs2 /\
        locate base name' = locate base name /\
        reported base (fst (fs_run base s cs1)) (FPut name' data i1 i2) name' ok /\
        (if ok then d = data else exists n, d = firstn n data) /\
        (forall a n' d' j1 j2 b, cs2 = a ++ FPut n' d' j1 j2 :: b -> locate base n' = locate base name ->
           reported base (fst (fs_run base s (cs1 ++ FPut name' data i1 i2 :: a))) (FPut n' d' j1 j2) n' false)).
    { intros Hg Hc. destruct (IH s name d Hg) as [H1|(cs1 & n' & dt & j1 & j2 & cs2 & ok & E & H1 & H2 & H3 & H4)]; [now left|right].
      exists cs1, n', dt, j1, j2, (cs2 ++ [c]), ok. split; [rewrite E, <- app_assoc; reflexivity|]. split; [exact H1|].
      split; [exact H2|]. split; [exact H3|]. intros a n2 d2 k1 k2 b Hs Hl.
      destruct b as [|x b] using rev_ind.
      - apply app_inj_tail in Hs as [<- ->]. rewrite <- E. now apply (Hc n2 d2 k1 k2).
      - clear IHb. change (a ++ FPut n2 d2 k1 k2 :: b ++ [x]) with (a ++ (FPut n2 d2 k1 k2 :: b) ++ [x]) in Hs.
        rewrite app_assoc in Hs. apply app_inj_tail in Hs as [-> ->]. eapply H4; [reflexivity|exact Hl]. }
    destruct c as [name' data i1 i2|name' i| |]; cbn [fs_step] in H; try (apply K; [exact H|intros; discriminate]).
    destruct (try_put base name' data i1 i2 (f_fs s1)) as [f1 ok] eqn:Ep. cbn [fst f_fs] in H.
    destruct (try_put_spec _ _ _ _ _ _ _ _ Ep) as (P1 & P2 & P3 & P4).
    unfold try_get, read_file in H. destruct (f1 (locate base name)) as [[|x]|] eqn:Ef; try discriminate. injection H as ->.
    destruct (path_dec (locate base name) (locate base name')) as [El|Nl].
    + rewrite El in Ef.
      assert (W : (if ok then d = data else exists n, d = firstn n data) \/ (ok = false /\ f_fs s1 (locate base name') = Some (NFile d))).
      { destruct ok; [left; specialize (P2 eq_refl); congruence|].
        destruct (P3 eq_refl) as [H|[[_ H]|[n H]]]; [right; split; congruence|congruence|left; exists n; congruence]. }
      destruct W as [W|[Wo W]].
      * right. exists cs, name', data, i1, i2, [], ok. split; [reflexivity|]. split; [now symmetry|].
        split; [unfold reported; fold s1; cbn [fs_step]; now rewrite Ep|]. split; [exact W|].
        intros a n' d' j1 j2 b Hs. now destruct a.
      * apply K.
        -- unfold try_get, read_file. rewrite El, W. reflexivity.
        -- intros n' d' j1 j2 E _. injection E as <- <- <- <-. unfold reported. cbn [fs_step]. rewrite Ep, Wo. reflexivity.
    + apply K.
      * unfold try_get, read_file. destruct (P1 _ Nl) as [H|(_ & H & _)]; [|congruence]. rewrite <- H, Ef. reflexivity.
      * intros n' d' j1 j2 E Hl. injection E as <- <- <- <-. congruence.
Qed.

(** Every put and every get is reported exactly once, in order, under its name. *)
Theorem C64_each_reported_once : forall base cs s s' rs, fs_run base s cs = (s', rs) ->
  map fst (put_reports rs ++ f_puts s') = map fst (f_puts s) ++ puts cs /\
  map fst (get_reports rs ++ f_gets s') = map fst (f_gets s) ++ gets cs.
Proof.
  induction cs as [|c cs IH]; intros s s' rs E; cbn [fs_run] in E.
  - injection E as <- <-. cbn. now rewrite !app_nil_r.
  - destruct (fs_step base s c) as [s1 r1] eqn:Es. destruct (fs_run base s1 cs) as [s2 r2] eqn:Er. injection E as <- <-.
    destruct (IH _ _ _ Er) as [I1 I2]. unfold put_reports, get_reports, puts, gets in *. rewrite !flat_map_app, <- !app_assoc, !map_app in *.
    rewrite I1, I2. cbn [flat_map]. destruct c as [name data i1 i2|name i| |]; cbn [fs_step] in Es.
    + destruct (try_put base name data i1 i2 (f_fs s)) as [f1 ok]. injection Es as <- <-. cbn [f_puts f_gets flat_map map app].
      rewrite map_app, <- app_assoc. now split.
    + injection Es as <- <-. cbn [f_puts f_gets flat_map map app]. rewrite map_app, <- app_assoc. now split.
    + injection Es as <- <-. cbn [f_puts f_gets flat_map map app]. rewrite app_nil_r. now split.
    + injection Es as <- <-. cbn [f_puts f_gets flat_map map app]. rewrite app_nil_r. now split.
Qed.

(** With plain names nothing outside the directory changes, and the directory stays. *)
Theorem C64_outside_untouched : forall base cs s,
  directory (f_fs s) base ->
  (forall n d i1 i2, In (FPut n d i1 i2) cs -> exists ps, plain n ps) ->
  directory (f_fs (fst (fs_run base s cs))) base /\
  forall q, ~ under base q -> f_fs (fst (fs_run base s cs)) q = f_fs s q.
Proof.
  intros base. induction cs as [|c cs IH]; intros s Hd Hp; [now split|]. cbn [fs_run].
  destruct (fs_step base s c) as [s1 r1] eqn:Es. destruct (fs_run base s1 cs) as [s2 r2] eqn:Er.
  assert (K : directory (f_fs s1) base /\ forall q, ~ under base q -> f_fs s1 q = f_fs s q).
  { destruct c as [name data i1 i2|name i| |]; cbn [fs_step] in Es; try (injection Es as <- <-; now split).
    destruct (try_put base name data i1 i2 (f_fs s)) as [f1 ok] eqn:Ep. injection Es as <- <-. cbn [f_fs].
    destruct (Hp name data i1 i2) as [ps Hps]; [now left|].
    destruct (try_put_spec _ _ _ _ _ _ _ _ Ep) as (P1 & _). rewrite (C64_plain_names_stay_inside base name ps Hps) in P1.
    destruct Hps as (_ & Hn & _).
    assert (Q : forall q, f_fs s q = Some NDir -> (exists r, base = q ++ r) -> f1 q = Some NDir).
    { intros q Hq [r Hr]. destruct (P1 q) as [H|(H & _)]; [|congruence|congruence].
      intros E. rewrite Hr, <- app_assoc in E. rewrite <- (app_nil_r q) in E at 1. apply app_inv_head in E.
      symmetry in E. apply app_eq_nil in E as [_ E]. contradiction. }
    split.
    - intros q r Hr. apply Q; [now apply (Hd q r)|now exists r].
    - intros q Hq. destruct (P1 q) as [H|(H1 & H2 & r & H3)]; [|exact H|].
      + intros ->. apply Hq. now exists ps.
      + destruct (Nat.le_ge_cases (length base) (length q)) as [L|L].
        * destruct (prefix_cases base ps q r H3 L) as (e & -> & _). exfalso. apply Hq. now exists e.
        * destruct (prefix_cases q r base ps (eq_sym H3) L) as (e & He & _). rewrite (Hd q e He) in H1. discriminate. }
  destruct K as [K1 K2]. specialize (IH s1 K1). rewrite Er in IH. cbn [fst] in *. destruct IH as [I1 I2].
  { intros n d i1 i2 Hin. apply (Hp n d i1 i2). now right. }
  split; [exact I1|]. intros q Hq. rewrite I2, K2 by exact Hq. reflexivity.
Qed.

(** *** Archives *)

Lemma archive_object_plain : forall ps, archive_object ps -> plain (join ps) ps.
Proof.
  intros ps [->|[->|(h & Hn & ->)]].
  - exact (proj1 (C64_archive_names_plain [])).
  - exact (proj1 (proj2 (C64_archive_names_plain []))).
  - exact (proj2 (proj2 (C64_archive_names_plain h)) Hn).
Qed.

(** What lies in the directory of an archive. *)
Definition tidy (base : path) (f : fs) : Prop :=
  directory f base /\
  forall q n, f (base ++ q) = Some n ->
    match n with
    | NFile _ => archive_object q
    | NDir => q = [] \/ q = [ArchiveModel.ascii_bytes "data"]
    end.

Lemma archive_object_not_dir : forall ps, archive_object ps -> ps <> [] /\ ps <> [ArchiveModel.ascii_bytes "data"].
Proof. intros ps [->|[->|(h & _ & ->)]]; split; discriminate. Qed.

Lemma archive_object_dirs : forall ps q r, archive_object ps -> removelast ps = q ++ r -> q = [] \/ q = [ArchiveModel.ascii_bytes "data"].
Proof.
  intros ps q r [->|[->|(h & _ & ->)]] H; cbn [removelast] in H.
  - destruct q; [now left|discriminate].
  - destruct q; [now left|discriminate].
  - destruct q as [|x q]; [now left|right]. injection H as <- H. now destruct q.
Qed.

Lemma removelast_base : forall (base ps : path), ps <> [] -> removelast (base ++ ps) = base ++ removelast ps.
Proof. intros. now apply removelast_app. Qed.

Lemma tidy_put : forall base ps data f f' ok, tidy base f -> archive_object ps ->
  try_put base (join ps) data IoOk IoOk f = (f', ok) -> tidy base f' /\ ok = true.
Proof.
  intros base ps data f f' ok [Hd Ht] Ha E. assert (Hp := archive_object_plain _ Ha).
  destruct (archive_object_not_dir _ Ha) as [N1 N2].
  assert (L := C64_plain_names_stay_inside base _ _ Hp).
  assert (S0 := try_put_spec _ _ _ _ _ _ _ _ E). cbv zeta in S0. rewrite L in S0. destruct S0 as (P1 & P2 & P3 & P4).
  unfold try_put in E. rewrite L, removelast_base in E by exact N1. unfold create_dir_all in E.
  destruct (make_dirs [] (base ++ removelast ps) IoOk f) as [f1 ok1] eqn:Em.
  destruct (make_dirs_spec _ _ _ _ _ _ Em) as (D1 & D2 & D3). cbn [app length] in D1, D2, D3.
  assert (K1 : ok1 = true).
  { apply D3; [reflexivity|]. intros q r Hq _ d Hf.
    destruct (Nat.le_ge_cases (length base) (length q)) as [Hl|Hl].
    - destruct (prefix_cases base (removelast ps) q r Hq Hl) as (e & -> & He).
      assert (Hc := archive_object_dirs ps e r Ha He). apply Ht in Hf. cbn in Hf.
      destruct (archive_object_not_dir _ Hf). tauto.
    - destruct (prefix_cases q r base (removelast ps) (eq_sym Hq) Hl) as (e & He & _). rewrite (Hd q e He) in Hf. discriminate. }
  subst ok1.
  assert (K2 : ok = true).
  { destruct (write_file_spec _ _ _ _ _ _ E) as (_ & _ & _ & _ & W5). apply W5; [reflexivity| | |].
    - intros H. apply app_eq_nil in H as [_ H]. contradiction.
    - destruct (D1 (base ++ ps)) as [->|(_ & _ & r & H)].
      + intros Hf. apply Ht in Hf. cbn in Hf. tauto.
      + exfalso. rewrite <- app_assoc in H. apply app_inv_head in H.
        assert (Hl : length (removelast ps) = length (ps ++ r)) by now rewrite H.
        assert (Hx := f_equal (@List.length comp) (app_removelast_last [] N1)). rewrite app_length in Hx, Hl. cbn [List.length] in Hx. unfold path, comp in *. lia.
    - rewrite removelast_base by exact N1. apply (D2 eq_refl (base ++ removelast ps) []); [now rewrite app_nil_r|lia]. }
  split; [|exact K2]. split.
  - intros q r Hr. destruct (P1 q) as [H|(H & _)].
    + intros ->. clear - Hr N1. apply (f_equal (@List.length comp)) in Hr. rewrite !app_length in Hr.
      destruct ps; [contradiction|cbn [List.length] in Hr; lia].
    + rewrite H. now apply (Hd q r).
    + rewrite (Hd q r Hr) in H. discriminate.
  - intros q n Hf. destruct (path_dec (base ++ q) (base ++ ps)) as [Eq|Nq].
    + apply app_inv_head in Eq. subst q. rewrite (P2 K2) in Hf. injection Hf as <-. exact Ha.
    + destruct (P1 _ Nq) as [H|(_ & H & r & Hr)]; [rewrite H in Hf; now apply Ht|].
      rewrite H in Hf. injection Hf as <-. rewrite <- app_assoc in Hr. apply app_inv_head in Hr.
      destruct r as [|x r] using rev_ind; [rewrite app_nil_r in Hr; subst; contradiction|].
      rewrite app_assoc in Hr. apply (f_equal (@removelast comp)) in Hr. rewrite removelast_last in Hr.
      now apply (archive_object_dirs ps q r Ha).
Qed.

(** In an empty directory the objects of an archive never get in each other's way:
    if the operating system reports no error, every put succeeds. *)
Theorem C64_archive_puts_succeed : forall base cs s,
  directory (f_fs s) base -> (forall q, q <> [] -> f_fs s (base ++ q) = None) ->
  Forall smooth cs ->
  (forall n d i1 i2, In (FPut n d i1 i2) cs -> exists ps, archive_object ps /\ n = join ps) ->
  forall s' rs, fs_run base s cs = (s', rs) ->
  put_reports rs ++ f_puts s' = f_puts s ++ map (fun n => (n, true)) (puts cs).
Proof.
  intros base cs s Hd He Hs Hn.
  assert (Ht : tidy base (f_fs s)).
  { split; [exact Hd|]. intros q n Hq. destruct q as [|x q].
    - rewrite app_nil_r, (Hd base []) in Hq by now rewrite app_nil_r. injection Hq as <-. now left.
    - rewrite He in Hq by discriminate. discriminate. }
  clear Hd He. revert s Ht Hs Hn. induction cs as [|c cs IH]; intros s Ht Hs Hn s' rs E; cbn [fs_run] in E.
  - injection E as <- <-. cbn. now rewrite app_nil_r.
  - destruct (fs_step base s c) as [s1 r1] eqn:Es. destruct (fs_run base s1 cs) as [s2 r2] eqn:Er. injection E as <- <-.
    inversion Hs as [|? ? Hc Hs']; subst.
    assert (K : tidy base (f_fs s1) /\ put_reports r1 ++ f_puts s1 = f_puts s ++ map (fun n => (n, true)) (puts [c])).
    { destruct c as [name data i1 i2|name i| |]; cbn [fs_step] in Es;
        try (injection Es as <- <-; cbn [puts put_reports flat_map f_puts f_fs map app]; rewrite ?app_nil_r; now split).
      destruct Hc as [-> ->]. destruct (Hn name data IoOk IoOk) as (ps & Ha & ->); [now left|].
      destruct (try_put base (join ps) data IoOk IoOk (f_fs s)) as [f1 ok] eqn:Ep. injection Es as <- <-.
      destruct (tidy_put _ _ _ _ _ _ Ht Ha Ep) as [T ->]. cbn [f_fs f_puts puts put_reports flat_map map app]. now split. }
    destruct K as [K1 K2]. specialize (IH s1 K1 Hs').
    rewrite (surjective_pairing (fs_run base s1 cs)) in Er.
    assert (X : put_reports r2 ++ f_puts s2 = f_puts s1 ++ map (fun n => (n, true)) (puts cs)).
    { apply IH; [|rewrite (surjective_pairing (fs_run base s1 cs)); exact Er]. intros n d i1 i2 Hin. apply (Hn n d i1 i2). now right. }
    unfold put_reports in *. rewrite flat_map_app, <- app_assoc, X, app_assoc, K2, <- app_assoc, <- map_app.
    do 2 f_equal. unfold puts. change (c :: cs) with ([c] ++ cs). now rewrite flat_map_app.
Qed.

(** *** What does not hold *)

(** Names that are not plain leave the directory. *)
Theorem C64_refuted_other_names :
  locate [[97%N]] [DOT; DOT; SLASH; 98%N] = [[98%N]] /\ locate [[97%N]] [SLASH; 98%N] = [[98%N]].
Proof. split; reflexivity. Qed.

Definition ex_base : path := [[97%N]].
Definition ex_fs : fs := fun p => if path_eqb p [] || path_eqb p ex_base then Some NDir else None.
Definition ex_store : fstore := mk_fstore ex_fs [] [].

(** A put that fails can destroy the object that was there. *)
Theorem C64_refuted_atomic : exists s,
  s = fst (fs_run ex_base ex_store [FPut [98%N] [1; 2; 3]%N IoOk IoOk; FPut [98%N] [1; 2; 3]%N IoOk (IoFail 1)]) /\
  f_puts s = [([98%N], true); ([98%N], false)] /\ try_get ex_base [98%N] IoOk (f_fs s) = Some [].
Proof. eexists. split; [reflexivity|]. split; vm_compute; reflexivity. Qed.

(** Success does not mean that the object is on disk: after a power loss any object
    put since the machine was started can be gone, or in part be zeros. *)
Theorem C64_refuted_power_loss : forall base s name data cs,
  f_fs s (locate base name) = None ->
  f_fs (fst (fs_run base s cs)) (locate base name) = Some (NFile data) ->
  (exists after, power_loss (f_fs s) (f_fs (fst (fs_run base s cs))) after /\ try_get base name IoOk after = None) /\
  (exists after, power_loss (f_fs s) (f_fs (fst (fs_run base s cs))) after /\
     try_get base name IoOk after = Some (repeat 0%N (length data))).
Proof.
  intros base s name data cs H0 H1. set (now := f_fs (fst (fs_run base s cs))) in *. split.
  - exists (fun q => if path_eqb q (locate base name) then None else now q). split.
    + intros q. unfold survives. destruct (path_eqb q (locate base name)); auto.
    + unfold try_get, read_file. now rewrite (proj2 (path_eqb_spec _ _) eq_refl).
  - exists (fs_set (locate base name) (NFile (repeat 0%N (length data))) now). split.
    + intros q. unfold survives. destruct (path_dec q (locate base name)) as [->|N].
      * rewrite fs_set_eq. right. right. right. exists data, 0, (length data). repeat split; auto.
      * rewrite fs_set_neq by exact N. auto.
    + unfold try_get, read_file. now rewrite fs_set_eq.
Qed.

(** *** A run: three objects of an archive, one of them read back. *)
Definition ex_calls : list fs_call :=
  [FPut (join [ArchiveModel.ascii_bytes "data"; ArchiveModel.hex [171%N]]) [1; 2]%N IoOk IoOk;
   FPut (join [ArchiveModel.META_NAME]) [3]%N IoOk IoOk; FPollPuts;
   FPut (join [ArchiveModel.ascii_bytes "data"; ArchiveModel.hex [17%N]]) [] IoOk IoOk;
   FGet (ArchiveModel.ascii_bytes "data/ab") IoOk; FPollGets].

Example C64_nonvacuous :
  directory (f_fs ex_store) ex_base /\ (forall q, q <> [] -> f_fs ex_store (ex_base ++ q) = None) /\ Forall smooth ex_calls /\
  (forall n d i1 i2, In (FPut n d i1 i2) ex_calls -> exists ps, archive_object ps /\ n = join ps) /\
  snd (fs_run ex_base ex_store ex_calls) =
    [RPuts [(ArchiveModel.ascii_bytes "data/ab", true); (ArchiveModel.META_NAME, true)];
     RGets [(ArchiveModel.ascii_bytes "data/ab", Some [1; 2]%N)]] /\
  f_puts (fst (fs_run ex_base ex_store ex_calls)) = [(ArchiveModel.ascii_bytes "data/11", true)].
Proof.
  split; [|split; [|split; [|split; [|split; vm_compute; reflexivity]]]].
  - intros q r H. destruct q as [|x q]; [reflexivity|]. injection H as <- H. destruct q; [reflexivity|discriminate].
  - intros q H. destruct q; [contradiction|]. reflexivity.
  - repeat constructor.
  - intros n d i1 i2 [E|[E|[E|[E|[E|[E|[]]]]]]]; try discriminate; injection E as <- _ _ _.
    + exists [ArchiveModel.ascii_bytes "data"; ArchiveModel.hex [171%N]]. split; [|reflexivity].
      right; right. exists [171%N]. split; [discriminate|reflexivity].
    + exists [ArchiveModel.META_NAME]. split; [now left|reflexivity].
    + exists [ArchiveModel.ascii_bytes "data"; ArchiveModel.hex [17%N]]. split; [|reflexivity].
      right; right. exists [17%N]. split; [discriminate|reflexivity].
Qed.

Print Assumptions C64_plain_names_stay_inside.
Print Assumptions C64_archive_names_plain.
Print Assumptions C64_read_back.
Print Assumptions C64_nothing_invented.
Print Assumptions C64_each_reported_once.
Print Assumptions C64_outside_untouched.
Print Assumptions C64_archive_puts_succeed.
Print Assumptions C64_refuted_other_names.
Print Assumptions C64_refuted_atomic.
Print Assumptions C64_refuted_power_loss.
