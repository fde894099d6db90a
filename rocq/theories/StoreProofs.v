(** Proofs about the S3 object store. *)
From Coq Require Import List Arith NArith Bool Lia ZifyBool ZifyNat ZifyN.
From Verif Require Import Base BaseFacts ArchiveModel StoreModel StoreSpec.
Import ListNotations.

Lemma upd_at {A} (f : nat -> A) k v k' : upd f k v k' = if k' =? k then v else f k'.
Proof. reflexivity. Qed.

Lemma flat_map_ext_in_ids {A B} (g h : A -> list B) l : (forall x, In x l -> g x = h x) -> flat_map g l = flat_map h l.
Proof. induction l as [|a l IH]; intros H; [reflexivity|]. cbn. rewrite H by now left. f_equal. apply IH. intros x Hx. apply H. now right. Qed.

(** ** Prefixes *)
Lemma trim_start_repeat n l : (l = [] \/ hd SLASH l <> SLASH) -> trim_start_slash (repeat SLASH n ++ l) = l.
Proof.
  intros H. induction n as [|n IH]; cbn.
  - destruct l as [|b l]; [reflexivity|]. cbn. destruct (b =? SLASH)%N eqn:E; [|reflexivity].
    apply N.eqb_eq in E. destruct H as [H|H]; [discriminate|]. cbn in H. congruence.
  - exact IH.
Qed.

Lemma trim_start_form l : exists n r, l = repeat SLASH n ++ r /\ (r = [] \/ hd SLASH r <> SLASH).
Proof.
  induction l as [|b l (n & r & -> & H)]; [exists 0, []; auto|].
  destruct (N.eq_dec b SLASH) as [-> |Hb].
  - exists (S n), r. auto.
  - exists 0, (b :: repeat SLASH n ++ r). split; [reflexivity|]. right. exact Hb.
Qed.

Lemma rev_repeat {A} (x : A) n : rev (repeat x n) = repeat x n.
Proof.
  induction n as [|n IH]; [reflexivity|]. cbn. rewrite IH. clear. induction n as [|n IH]; [reflexivity|]. cbn. now rewrite IH.
Qed.

Lemma last_rev {A} (d : A) l : last l d = hd d (rev l).
Proof.
  induction l as [|a l IH] using rev_ind; [reflexivity|]. rewrite last_last, rev_app_distr. reflexivity.
Qed.

Lemma trim_named n core m : core <> [] -> hd SLASH core <> SLASH -> last core SLASH <> SLASH ->
  trim_slashes (repeat SLASH n ++ core ++ repeat SLASH m) = core.
Proof.
  intros H1 H2 H3. unfold trim_slashes. rewrite trim_start_repeat.
  - rewrite rev_app_distr, rev_repeat, trim_start_repeat; [apply rev_involutive|].
    right. now rewrite <- last_rev.
  - right. destruct core; [congruence|exact H2].
Qed.

Lemma trim_all n : trim_slashes (repeat SLASH n) = [].
Proof. unfold trim_slashes. rewrite <- (app_nil_r (repeat SLASH n)), trim_start_repeat by auto. reflexivity. Qed.

Lemma folder_exists prefix : exists f, folder prefix f.
Proof.
  destruct prefix as [p|]; [|exists []; constructor].
  destruct (trim_start_form p) as (n & r & -> & [-> |Hr]).
  - rewrite app_nil_r. exists []. constructor.
  - destruct (trim_start_form (rev r)) as (m & q & Eq & Hq).
    assert (Er : r = rev q ++ repeat SLASH m) by (rewrite <- (rev_involutive r), Eq, rev_app_distr, rev_repeat; reflexivity).
    destruct Hq as [-> |Hq].
    + exfalso. cbn in Er. subst r. destruct m; cbn in Hr; congruence.
    + rewrite Er. exists (rev q ++ [SLASH]).
      assert (Hn : rev q <> []).
      { intros E. assert (q = []) as -> by (rewrite <- (rev_involutive q), E; reflexivity). apply Hq. reflexivity. }
      constructor; [exact Hn| |rewrite last_rev, rev_involutive; exact Hq].
      rewrite Er in Hr. destruct (rev q); [congruence|exact Hr].
Qed.

Lemma folder_key prefix f : folder prefix f -> forall name, key_with_prefix (normalized_prefix prefix) name = f ++ name.
Proof.
  intros H name. destruct H as [|n|n core m H1 H2 H3]; [reflexivity| |]; unfold normalized_prefix.
  - rewrite trim_all. reflexivity.
  - rewrite trim_named by assumption. destruct core; [congruence|reflexivity].
Qed.

Lemma folder_unique prefix f f' : folder prefix f -> folder prefix f' -> f = f'.
Proof.
  intros H H'. pose proof (folder_key _ _ H []) as A. rewrite (folder_key _ _ H' []) in A. now rewrite !app_nil_r in A.
Qed.

(** A folder is empty or ends with a slash. *)
Lemma folder_slash prefix f : folder prefix f -> f = [] \/ exists p, f = p ++ [SLASH] /\ p <> [] /\ last p SLASH <> SLASH /\ hd SLASH p <> SLASH.
Proof. intros H. destruct H; auto. right. eauto. Qed.

(** ** Runs *)
Lemma s3_run_app s a b : s3_run s (a ++ b) =
  (fst (s3_run (fst (s3_run s a)) b), snd (s3_run s a) ++ snd (s3_run (fst (s3_run s a)) b)).
Proof.
  revert s. induction a as [|e a IH]; intros s; cbn; [now destruct (s3_run s b)|].
  destruct (s3_step s e) as [s1 o1]. rewrite IH. destruct (s3_run s1 a) as [s2 o2]. cbn.
  destruct (s3_run s2 b). cbn. now rewrite app_assoc.
Qed.

Section Run.
Variables (prefix : option (list byte)) (threads : nat) (b0 : store) (ev : nat -> sevent) (f : list byte).
Hypothesis F : folder prefix f.
Notation s0 := (s3_new prefix threads b0).
Notation after := (after s0 ev).
Notation shows := (shows s0 ev).
Notation right_outcome := (right_outcome s0 ev f).

Lemma after_S t : after (S t) = fst (s3_step (after t) (ev t)).
Proof.
  unfold StoreSpec.after. rewrite seq_S, map_app, s3_run_app. cbn [map fst s3_run].
  destruct (s3_step _ _); reflexivity.
Qed.

Definition called (id t0 : nat) (c : call) : Prop := In (Called id c) (shows t0).

Definition good_req (t : nat) (q : s3_request) : Prop :=
  exists t0, t0 < t /\ called (rq_id q) t0 (rq_call q) /\ rq_key q = f ++ call_name (rq_call q).
Definition good_job (t : nat) (j : job) : Prop :=
  exists t0, t0 < t /\ called (rq_id (jb_req j)) t0 (rq_call (jb_req j)) /\
    rq_key (jb_req j) = f ++ call_name (rq_call (jb_req j)) /\
    forall d, (jb_seen j = Some (Some d) \/ exists n, rq_call (jb_req j) = Put n d /\ jb_seen j <> None) ->
      exists u, t0 < u <= t /\ s3_bucket (after u) (rq_key (jb_req j)) = Some d.
Definition good_result (t : nat) (r : s3_result) : Prop :=
  exists t0 c, t0 < t /\ called (rs_id r) t0 c /\ rs_name r = call_name c /\ right_outcome t0 t c (rs_out r).

Record J (s : s3) (t : nat) : Prop := {
  j_prefix : sp_prefix s = normalized_prefix prefix;
  j_workers : sp_workers s = worker_count threads;
  j_alive : forall w, s3_alive s w = true -> w < worker_count threads;
  j_busy : forall w, s3_jobs s w <> None -> s3_alive s w = true;
  j_queue : forall q, In q (s3_queue s) -> good_req t q;
  j_jobs : forall w j, s3_jobs s w = Some j -> good_job t j;
  j_results : forall r, In r (s3_results s) -> good_result t r;
  j_puts : forall r, In r (s3_puts s) -> good_result t r /\ is_put r = true;
  j_gets : forall r, In r (s3_gets s) -> good_result t r /\ is_put r = false }.

Lemma right_mono t0 t t' c o : t <= t' -> right_outcome t0 t c o -> right_outcome t0 t' c o.
Proof.
  intros L. unfold StoreSpec.right_outcome. destruct c, o; auto.
  - intros H Hk. destruct (H Hk) as (u & Hu & E). exists u. split; [lia|exact E].
  - intros H d Hd. destruct (H d Hd) as (u & Hu & E). exists u. split; [lia|exact E].
Qed.
Lemma good_req_mono t t' q : t <= t' -> good_req t q -> good_req t' q.
Proof. intros L (t0 & A & B). exists t0. split; [lia|exact B]. Qed.
Lemma good_result_mono t t' r : t <= t' -> good_result t r -> good_result t' r.
Proof. intros L (t0 & c & A & B & C & D). exists t0, c. split; [lia|]. eauto using right_mono. Qed.
Lemma good_job_mono t t' j : t <= t' -> good_job t j -> good_job t' j.
Proof.
  intros L (t0 & A & B & C & D). exists t0. split; [lia|]. split; [exact B|]. split; [exact C|].
  intros d Hd. destruct (D d Hd) as (u & Hu & E). exists u. split; [lia|exact E].
Qed.

Lemma drained_puts s r : In r (s3_puts (drain_results s)) -> In r (s3_puts s) \/ (In r (s3_results s) /\ is_put r = true).
Proof. cbn. rewrite in_app_iff, filter_In. tauto. Qed.
Lemma drained_gets s r : In r (s3_gets (drain_results s)) -> In r (s3_gets s) \/ (In r (s3_results s) /\ is_put r = false).
Proof. cbn. rewrite in_app_iff, filter_In, negb_true_iff. tauto. Qed.

Lemma bucket_set_same b k v : bucket_set b k v k = v.
Proof. unfold bucket_set. now replace (bytes_eqb k k) with true by (symmetry; now apply bytes_eqb_spec). Qed.

Lemma J_mono s t t' : t <= t' -> J s t -> J s t'.
Proof.
  intros L [P W A B Q Jb R Pu Ge]. constructor; eauto using good_req_mono, good_job_mono, good_result_mono;
    intros r Hr; [destruct (Pu r Hr)|destruct (Ge r Hr)]; eauto using good_result_mono.
Qed.

Lemma J_all t : J (after t) t.
Proof.
  induction t as [|t IH].
  - constructor; cbn; try reflexivity; try tauto; try discriminate. intros w H. now apply Nat.ltb_lt in H.
  - pose proof (after_S t) as AS. pose proof (J_mono (after t) t (S t) (Nat.le_succ_diag_r t) IH) as [P W A B Q Jb R Pu Ge].
    assert (SH : shows t = snd (s3_step (after t) (ev t))) by reflexivity.
    destruct (ev t) as [c|w|w|w ok| | |w|k v] eqn:E; cbn [s3_step] in AS, SH.
    + (* SCall *)
      assert (C : called (s3_next (after t)) t c) by (unfold called; rewrite SH; destruct (some_alive (after t)); cbn; auto).
      assert (N : good_req (S t) (mk_req (s3_next (after t)) c (key_with_prefix (sp_prefix (after t)) (call_name c)))).
      { exists t. split; [lia|]. split; [exact C|]. cbn. rewrite P. now apply folder_key. }
      assert (NR : good_result (S t) (mk_result (s3_next (after t)) (call_name c) (error_of c))).
      { exists t, c. split; [lia|]. split; [exact C|]. split; [reflexivity|]. destruct c; cbn; discriminate. }
      destruct (some_alive (after t)); cbn [fst] in AS; rewrite AS.
      * constructor; cbn; auto. intros q. rewrite in_app_iff. intros [H|[<-|[]]]; auto.
      * destruct c as [n d|n]; constructor; cbn; auto; intros r; rewrite in_app_iff; intros [H|[<-|[]]]; auto.
    + (* STake *)
      destruct (s3_alive (after t) w) eqn:Ew; [|cbn in AS; rewrite AS; now constructor].
      destruct (s3_jobs (after t) w) eqn:Ej; [cbn in AS; rewrite AS; now constructor|].
      destruct (s3_queue (after t)) as [|q qs] eqn:Eq; [cbn in AS; rewrite AS; constructor; auto; rewrite Eq; tauto|].
      cbn in AS. rewrite AS. constructor; cbn; auto.
      * intros w'. rewrite upd_at. destruct (w' =? w) eqn:Ec; [apply Nat.eqb_eq in Ec; now subst w'|apply B].
      * intros q' H. apply Q. now right.
      * intros w' j. rewrite upd_at. destruct (w' =? w) eqn:Ec; [|apply Jb]. intros [= <-].
        destruct (Q q) as (t0 & H1 & H2 & H3); [now left|]. exists t0. cbn. repeat split; auto.
        intros d [H|(n & _ & H)]; congruence.
    + (* SEffect *)
      destruct (s3_jobs (after t) w) as [j|] eqn:Ej; [|cbn in AS; rewrite AS; now constructor].
      pose proof (j_jobs _ _ IH w j Ej) as (t0 & H1 & H2 & H3 & H4).
      assert (Hb : s3_alive (after t) w = true) by (apply B; congruence).
      destruct (rq_call (jb_req j)) as [n d|n] eqn:Er; cbn in AS.
      * assert (Bk : s3_bucket (after (S t)) (rq_key (jb_req j)) = Some d) by (rewrite AS; apply bucket_set_same).
        rewrite AS. constructor; cbn; auto.
        -- intros w'. rewrite upd_at. destruct (w' =? w) eqn:Ec; [apply Nat.eqb_eq in Ec; now subst w'|apply B].
        -- intros w' j'. rewrite upd_at. destruct (w' =? w) eqn:Ec; [|apply Jb]. intros [= <-].
           exists t0. cbn. rewrite Er. split; [lia|]. split; [exact H2|]. split; [exact H3|].
           intros d' Hd. exists (S t). split; [lia|]. rewrite Bk. destruct Hd as [Hd|(n' & Hd & _)]; congruence.
      * rewrite AS. constructor; cbn; auto.
        -- intros w'. rewrite upd_at. destruct (w' =? w) eqn:Ec; [apply Nat.eqb_eq in Ec; now subst w'|apply B].
        -- intros w' j'. rewrite upd_at. destruct (w' =? w) eqn:Ec; [|apply Jb]. intros [= <-].
           exists t0. cbn. rewrite Er. split; [lia|]. split; [exact H2|]. split; [exact H3|].
           intros d' [Hd|(n' & Hd & _)]; [|discriminate]. exists t. split; [lia|]. congruence.
    + (* SDone *)
      destruct (s3_jobs (after t) w) as [j|] eqn:Ej; [|cbn in AS; rewrite AS; now constructor].
      pose proof (j_jobs _ _ IH w j Ej) as (t0 & H1 & H2 & H3 & H4).
      match type of AS with context [let '(_, _) := ?p in _] => destruct p as [bk out] eqn:Ep end.
      cbn [fst] in AS.
      assert (G : good_result (S t) (mk_result (rq_id (jb_req j)) (call_name (rq_call (jb_req j))) out)).
      { exists t0, (rq_call (jb_req j)). split; [lia|]. split; [exact H2|]. split; [reflexivity|]. cbn [rs_out].
        rewrite H3 in *. destruct (rq_call (jb_req j)) as [n d|n] eqn:Er; cbn [call_name] in *.
        - injection Ep as <- <-. cbn. intros ->. destruct (jb_seen j) as [v|] eqn:Es.
          + destruct (H4 d) as (u & Hu & Eu); [right; exists n; split; congruence|]. exists u. split; [lia|exact Eu].
          + exists (S t). split; [lia|]. rewrite AS. cbn. apply bucket_set_same.
        - injection Ep as <- <-. cbn. intros d Hd. destruct ok; [|discriminate]. destruct (jb_seen j) as [v|] eqn:Es.
          + subst v. destruct (H4 d) as (u & Hu & Eu); [left; congruence|]. exists u. split; [lia|exact Eu].
          + exists t. split; [lia|exact Hd]. }
      rewrite AS. constructor; cbn; auto.
      * intros w'. rewrite upd_at. destruct (w' =? w); [congruence|apply B].
      * intros w' j'. rewrite upd_at. destruct (w' =? w); [discriminate|apply Jb].
      * intros r. rewrite in_app_iff. intros [H|[<-|[]]]; auto.
    + cbn in AS. rewrite AS. constructor; cbn; auto; try tauto.
      intros r H. apply drained_gets in H as [H|[H Hp]]; auto.
    + cbn in AS. rewrite AS. constructor; cbn; auto; try tauto.
      intros r H. apply drained_puts in H as [H|[H Hp]]; auto.
    + cbn in AS. rewrite AS. constructor; cbn; auto.
      * intros w'. rewrite upd_at. destruct (w' =? w); [discriminate|apply A].
      * intros w'. rewrite !upd_at. destruct (w' =? w); [congruence|apply B].
      * destruct (existsb _ _); [exact Q|cbn; tauto].
      * intros w' j'. rewrite upd_at. destruct (w' =? w); [discriminate|apply Jb].
    + cbn in AS. rewrite AS. now constructor.
Qed.

(** Every answer matches its call. *)
Lemma answer_right t id name o : In (Answered id name o) (shows t) ->
  exists t0 c, t0 < t /\ called id t0 c /\ name = call_name c /\ right_outcome t0 t c o.
Proof.
  intros H. unfold StoreSpec.shows in H. pose proof (J_all t) as [P W A B Q Jb R Pu Ge].
  assert (G : forall rs, (forall r, In r rs -> good_result t r) -> In (Answered id name o) (answers rs) ->
    exists t0 c, t0 < t /\ called id t0 c /\ name = call_name c /\ right_outcome t0 t c o).
  { intros rs Hr Hi. apply in_map_iff in Hi as (r & [= <- <- <-] & Hi). destruct (Hr r Hi) as (t0 & c & X). eauto. }
  destruct (ev t) as [c|w|w|w ok| | |w|k v]; cbn [s3_step] in H.
  - destruct (some_alive (after t)); cbn in H; destruct H as [H|[]]; discriminate.
  - destruct (s3_alive (after t) w); [|destruct H]. destruct (s3_jobs (after t) w), (s3_queue (after t)); destruct H.
  - destruct (s3_jobs (after t) w) as [j|]; [|destruct H]. destruct (rq_call (jb_req j)); destruct H.
  - destruct (s3_jobs (after t) w) as [j|]; [|destruct H].
    match type of H with context [let '(_, _) := ?p in _] => destruct p end. destruct H.
  - apply (G _) in H; [exact H|]. intros r Hr. cbn in Hr. apply drained_puts in Hr as [Hr|[Hr _]]; auto. now apply Pu.
  - apply (G _) in H; [exact H|]. intros r Hr. cbn in Hr. apply drained_gets in Hr as [Hr|[Hr _]]; auto. now apply Ge.
  - destruct H.
  - destruct H.
Qed.

Lemma called_now t id c : called id t c -> ev t = SCall c /\ id = s3_next (after t).
Proof.
  unfold called, StoreSpec.shows. intros H. destruct (ev t) as [c'|w|w|w ok| | |w|k v]; cbn [s3_step] in H.
  - destruct (some_alive (after t)); cbn in H; destruct H as [H|[]]; injection H as <- <-; auto.
  - destruct (s3_alive (after t) w); [|destruct H]. destruct (s3_jobs (after t) w), (s3_queue (after t)); destruct H.
  - destruct (s3_jobs (after t) w) as [j|]; [|destruct H]. destruct (rq_call (jb_req j)); destruct H.
  - destruct (s3_jobs (after t) w) as [j|]; [|destruct H].
    match type of H with context [let '(_, _) := ?p in _] => destruct p end. destruct H.
  - apply in_map_iff in H as (r & H & _). discriminate.
  - apply in_map_iff in H as (r & H & _). discriminate.
  - destruct H.
  - destruct H.
Qed.

Lemma next_step s e : s3_next (fst (s3_step s e)) = match e with SCall _ => S (s3_next s) | _ => s3_next s end.
Proof.
  destruct e as [c|w|w|w ok| | |w|k v]; cbn [s3_step]; try reflexivity.
  - now destruct (some_alive s).
  - destruct (s3_alive s w); [|reflexivity]. now destruct (s3_jobs s w), (s3_queue s).
  - destruct (s3_jobs s w) as [j|]; [|reflexivity]. now destruct (rq_call (jb_req j)).
  - destruct (s3_jobs s w) as [j|]; [|reflexivity].
    match goal with |- context [let '(_, _) := ?p in _] => destruct p end. reflexivity.
Qed.

Lemma next_mono t t' : t <= t' -> s3_next (after t) <= s3_next (after t').
Proof.
  induction 1 as [|t' L IH]; [lia|]. rewrite after_S, next_step. destruct (ev t'); lia.
Qed.

Lemma called_unique id t c t' c' : called id t c -> called id t' c' -> t = t' /\ c = c'.
Proof.
  intros H H'. apply called_now in H as [E ->]. apply called_now in H' as [E' N].
  assert (t = t').
  { destruct (Nat.lt_trichotomy t t') as [L|[L|L]]; auto; exfalso.
    - pose proof (next_mono (S t) t' L) as M. rewrite after_S, next_step, E in M. lia.
    - pose proof (next_mono (S t') t L) as M. rewrite after_S, next_step, E' in M. lia. }
  subst t'. split; congruence.
Qed.

(** *** At most one answer *)
Definition ids_of (o : list sobs) : list nat :=
  flat_map (fun x => match x with Answered id _ _ => [id] | Called _ _ => [] end) o.
Definition cnt (id : nat) (l : list nat) : nat := count_occ Nat.eq_dec l id.
Definition jid (o : option job) : list nat := match o with Some j => [rq_id (jb_req j)] | None => [] end.
Definition job_ids (s : s3) (jobs : nat -> option job) : list nat := flat_map (fun w => jid (jobs w)) (seq 0 (sp_workers s)).

Lemma cnt_app id a b : cnt id (a ++ b) = cnt id a + cnt id b.
Proof. apply count_occ_app. Qed.

Lemma job_upd s jobs w v id : w < sp_workers s ->
  cnt id (job_ids s (upd jobs w v)) + cnt id (jid (jobs w)) = cnt id (job_ids s jobs) + cnt id (jid v).
Proof.
  intros H. unfold job_ids. replace (sp_workers s) with (w + S (sp_workers s - S w)) by lia.
  rewrite seq_app, !flat_map_app. cbn [seq flat_map]. rewrite !cnt_app, Nat.add_0_l.
  rewrite upd_eq.
  assert (E : forall a n, (forall x, In x (seq a n) -> x <> w) ->
    flat_map (fun x => jid (upd jobs w v x)) (seq a n) = flat_map (fun x => jid (jobs x)) (seq a n)).
  { intros a n Hn. apply flat_map_ext_in_ids. intros x Hx. rewrite upd_at. apply Hn in Hx.
    destruct (x =? w) eqn:Ec; [apply Nat.eqb_eq in Ec; congruence|reflexivity]. }
  rewrite (E 0 w) by (intros x Hx; apply in_seq in Hx; lia).
  rewrite (E (S w)) by (intros x Hx; apply in_seq in Hx; lia). lia.
Qed.

Definition held (s : s3) : list nat :=
  map rq_id (s3_queue s) ++ map rs_id (s3_results s) ++ map rs_id (s3_puts s) ++ map rs_id (s3_gets s) ++ job_ids s (s3_jobs s).

Lemma cnt_filter (p : s3_result -> bool) id l :
  cnt id (map rs_id (filter p l)) + cnt id (map rs_id (filter (fun r => negb (p r)) l)) = cnt id (map rs_id l).
Proof.
  induction l as [|r l IH]; [reflexivity|]. cbn. destruct (p r); cbn; unfold cnt in *; cbn; destruct (Nat.eq_dec (rs_id r) id); lia.
Qed.

Lemma ids_answers rs : ids_of (answers rs) = map rs_id rs.
Proof. unfold ids_of, answers. rewrite flat_map_concat_map, map_map. induction rs; [reflexivity|]. cbn. f_equal. exact IHrs. Qed.

Lemma cnt_one id x : cnt id [x] = if id =? x then 1 else 0.
Proof. unfold cnt. cbn. destruct (Nat.eq_dec x id), (id =? x) eqn:E; try reflexivity; [apply Nat.eqb_neq in E|apply Nat.eqb_eq in E]; congruence. Qed.

Lemma held_step s e id : (forall w, s3_jobs s w <> None -> s3_alive s w = true) -> (forall w, s3_alive s w = true -> w < sp_workers s) ->
  cnt id (held (fst (s3_step s e))) + cnt id (ids_of (snd (s3_step s e))) <=
  cnt id (held s) + match e with SCall _ => if id =? s3_next s then 1 else 0 | _ => 0 end.
Proof.
  intros B A. unfold held. destruct e as [c|w|w|w ok| | |w|k v]; cbn [s3_step].
  - destruct (some_alive s); [|destruct c]; cbn [fst snd s3_queue s3_results s3_puts s3_gets s3_jobs is_put rs_out error_of];
      rewrite ?map_app, ?cnt_app; cbn [map]; rewrite ?cnt_one; cbn [ids_of flat_map app rq_id rs_id]; unfold job_ids; cbn [sp_workers];
      change (cnt id []) with 0; lia.
  - destruct (s3_alive s w) eqn:Ew; [|cbn; lia]. destruct (s3_jobs s w) eqn:Ej; [cbn; lia|].
    destruct (s3_queue s) as [|q qs] eqn:Eq; [cbn [fst snd]; rewrite Eq; cbn; lia|].
    cbn [fst snd s3_queue s3_results s3_puts s3_gets s3_jobs]. pose proof (job_upd s (s3_jobs s) w (Some (mk_job q None)) id (A w Ew)) as U.
    rewrite Ej in U. change (cnt id (jid None)) with 0 in U. change (jid (Some (mk_job q None))) with [rq_id q] in U.
    unfold job_ids in *. cbn [sp_workers]. rewrite !cnt_app. cbn [map]. change (rq_id q :: map rq_id qs) with ([rq_id q] ++ map rq_id qs).
    rewrite cnt_app. change (cnt id (ids_of [])) with 0. lia.
  - destruct (s3_jobs s w) as [j|] eqn:Ej; [|cbn; lia].
    assert (Hw : w < sp_workers s) by (apply A, B; congruence).
    destruct (rq_call (jb_req j)) as [n d|n]; cbn [fst snd]; unfold set_bucket, set_jobs, job_ids;
      cbn [s3_queue s3_results s3_puts s3_gets s3_jobs sp_workers];
      match goal with |- context [upd (s3_jobs s) w ?x] => pose proof (job_upd s (s3_jobs s) w x id Hw) as U end;
      rewrite Ej in U; cbn [jid jb_req] in U; unfold job_ids in U; rewrite !cnt_app; change (cnt id (ids_of [])) with 0; lia.
  - destruct (s3_jobs s w) as [j|] eqn:Ej; [|cbn; lia].
    assert (Hw : w < sp_workers s) by (apply A, B; congruence).
    match goal with |- context [let '(_, _) := ?p in _] => destruct p as [bk out] end. cbn [fst snd]. unfold job_ids.
    cbn [s3_queue s3_results s3_puts s3_gets s3_jobs sp_workers]. pose proof (job_upd s (s3_jobs s) w None id Hw) as U.
    rewrite Ej in U. cbn [jid] in U. change (cnt id []) with 0 in U. unfold job_ids in U.
    rewrite ?map_app, !cnt_app. cbn [map rs_id]. change (cnt id (ids_of [])) with 0. lia.
  - cbn [fst snd]. rewrite ids_answers. unfold job_ids, drain_results. cbn [s3_queue s3_results s3_puts s3_gets s3_jobs sp_workers map]. rewrite ?map_app, ?cnt_app. pose proof (cnt_filter is_put id (s3_results s)).
    change (cnt id []) with 0. lia.
  - cbn [fst snd]. rewrite ids_answers. unfold job_ids, drain_results. cbn [s3_queue s3_results s3_puts s3_gets s3_jobs sp_workers map]. rewrite ?map_app, ?cnt_app. pose proof (cnt_filter is_put id (s3_results s)).
    change (cnt id []) with 0. lia.
  - cbn [fst snd s3_queue s3_results s3_puts s3_gets s3_jobs]. rewrite !cnt_app. change (cnt id (ids_of [])) with 0.
    assert (U : cnt id (job_ids s (upd (s3_jobs s) w None)) <= cnt id (job_ids s (s3_jobs s))).
    { destruct (Nat.lt_ge_cases w (sp_workers s)) as [L|L].
      - pose proof (job_upd s (s3_jobs s) w None id L) as U. change (cnt id (jid None)) with 0 in U. lia.
      - unfold job_ids. erewrite flat_map_ext_in_ids; [reflexivity|]. intros x Hx. apply in_seq in Hx. rewrite upd_at.
        destruct (x =? w) eqn:Ec; [apply Nat.eqb_eq in Ec; lia|reflexivity]. }
    unfold job_ids in *. cbn [sp_workers]. destruct (existsb _ _); cbn [map]; change (cnt id []) with 0; lia.
  - cbn [fst snd]. change (cnt id (ids_of [])) with 0. unfold set_bucket, job_ids. cbn [s3_queue s3_results s3_puts s3_gets s3_jobs sp_workers]. lia.
Qed.

Definition ids_until (t : nat) : list nat := ids_of (snd (s3_run s0 (map ev (seq 0 t)))).
Lemma ids_until_S t : ids_until (S t) = ids_until t ++ ids_of (shows t).
Proof.
  unfold ids_until. rewrite seq_S, map_app, s3_run_app. cbn [map snd s3_run]. unfold ids_of at 1.
  rewrite flat_map_app. unfold StoreSpec.shows, StoreSpec.after. rewrite Nat.add_0_l. f_equal.
  destruct (s3_step _ _) as [s1 o1]. cbn. now rewrite app_nil_r.
Qed.

Lemma ids_bound t id : cnt id (held (after t)) + cnt id (ids_until t) <= if id <? s3_next (after t) then 1 else 0.
Proof.
  induction t as [|t IH].
  - cbn. unfold job_ids. cbn. induction (seq 0 (worker_count threads)); [cbn; lia|]. cbn. exact IHl.
  - rewrite after_S, next_step, ids_until_S, cnt_app. pose proof (J_all t) as K.
    pose proof (held_step (after t) (ev t) id (j_busy _ _ K)) as H.
    rewrite (j_workers _ _ K) in H. specialize (H (j_alive _ _ K)). unfold StoreSpec.shows.
    destruct (ev t); try (destruct (id <? s3_next (after t)); lia).
    destruct (id =? s3_next (after t)) eqn:E1, (id <? s3_next (after t)) eqn:E2, (id <? S (s3_next (after t))) eqn:E3; lia.
Qed.

Lemma answered_once t : NoDup (ids_until t).
Proof.
  apply (NoDup_count_occ Nat.eq_dec). intros id. pose proof (ids_bound t id) as H. unfold cnt in H.
  destruct (id <? s3_next (after t)); lia.
Qed.

(** *** Who changes the bucket *)
Lemma bucket_set_other b k v k' : k' <> k -> bucket_set b k v k' = b k'.
Proof.
  intros H. unfold bucket_set. destruct (bytes_eqb k' k) eqn:E; [|reflexivity]. apply bytes_eqb_spec in E. congruence.
Qed.

Lemma held_not_answered t id : In id (held (after t)) -> ~ In id (ids_until t).
Proof.
  intros H H'. pose proof (ids_bound t id) as B. apply (count_occ_In Nat.eq_dec) in H, H'. unfold cnt in B.
  destruct (id <? s3_next (after t)); lia.
Qed.

Lemma job_held t w j : s3_jobs (after t) w = Some j -> In (rq_id (jb_req j)) (held (after t)).
Proof.
  intros H. unfold held, job_ids. rewrite !in_app_iff. do 4 right. apply in_flat_map. exists w. split; [|rewrite H; now left].
  apply in_seq. pose proof (J_all t) as K. rewrite (j_workers _ _ K). split; [lia|]. apply (j_alive _ _ K), (j_busy _ _ K). congruence.
Qed.

Lemma change t k : s3_bucket (after (S t)) k <> s3_bucket (after t) k ->
  (exists v, ev t = SOther k v) \/
  exists id n d t0, k = f ++ n /\ s3_bucket (after (S t)) k = Some d /\ t0 < t /\ called id t0 (Put n d) /\ ~ In id (ids_until t).
Proof.
  rewrite after_S. intros H. destruct (ev t) as [c|w|w|w ok| | |w|k' v] eqn:E; cbn [s3_step] in H |- *; try (exfalso; apply H; reflexivity).
  - exfalso. apply H. now destruct (some_alive (after t)).
  - exfalso. apply H. destruct (s3_alive (after t) w); [|reflexivity]. now destruct (s3_jobs (after t) w), (s3_queue (after t)).
  - destruct (s3_jobs (after t) w) as [j|] eqn:Ej; [|exfalso; apply H; reflexivity].
    pose proof (j_jobs _ _ (J_all t) w j Ej) as (t0 & H1 & H2 & H3 & _). pose proof (job_held t w j Ej) as Hh.
    destruct (rq_call (jb_req j)) as [n d|n] eqn:Er; cbn [fst set_bucket set_jobs s3_bucket] in *; [|exfalso; apply H; reflexivity].
    right. exists (rq_id (jb_req j)), n, d, t0. cbn [call_name] in H3.
    assert (k = f ++ n) as ->.
    { destruct (bytes_eqb k (f ++ n)) eqn:Ek; [now apply bytes_eqb_spec in Ek|]. exfalso. apply H. rewrite bucket_set_other; [reflexivity|].
      intros Q. rewrite Q, H3 in Ek. assert (bytes_eqb (f ++ n) (f ++ n) = true) by now apply bytes_eqb_spec. congruence. }
    split; [reflexivity|]. rewrite H3, bucket_set_same. repeat split; auto. now apply held_not_answered.
  - destruct (s3_jobs (after t) w) as [j|] eqn:Ej; [|exfalso; apply H; reflexivity].
    pose proof (j_jobs _ _ (J_all t) w j Ej) as (t0 & H1 & H2 & H3 & _). pose proof (job_held t w j Ej) as Hh.
    destruct (rq_call (jb_req j)) as [n d|n] eqn:Er; cbn [fst s3_bucket] in *; [|exfalso; apply H; reflexivity].
    destruct ok; [|exfalso; apply H; reflexivity]. destruct (jb_seen j); [exfalso; apply H; reflexivity|].
    right. exists (rq_id (jb_req j)), n, d, t0. cbn [call_name] in H3.
    assert (k = f ++ n) as ->.
    { destruct (bytes_eqb k (f ++ n)) eqn:Ek; [now apply bytes_eqb_spec in Ek|]. exfalso. apply H. rewrite bucket_set_other; [reflexivity|].
      intros Q. rewrite Q, H3 in Ek. assert (bytes_eqb (f ++ n) (f ++ n) = true) by now apply bytes_eqb_spec. congruence. }
    split; [reflexivity|]. rewrite H3, bucket_set_same. repeat split; auto. now apply held_not_answered.
  - left. exists v. cbn [fst set_bucket s3_bucket] in H. destruct (bytes_eqb k k') eqn:Ek.
    + apply bytes_eqb_spec in Ek. now subst k'.
    + exfalso. apply H. apply bucket_set_other. intros Q. subst k'. assert (bytes_eqb k k = true) by now apply bytes_eqb_spec. congruence.
Qed.

(** *** Every call is answered *)
Section Live.
Hypothesis KR : store_keeps_running s0 ev (worker_count threads).

Lemma until (E P : nat -> Prop) (G : Prop) t : (forall u, E u \/ ~ E u) -> again E -> P t ->
  (forall u, t <= u -> P u -> ~ E u -> P (S u) \/ G) -> G \/ exists u, t <= u /\ P u /\ E u.
Proof.
  intros D A HP Hs. destruct (A t) as (t' & L & HE).
  assert (K : forall n u, t <= u -> u + n = t' -> P u -> G \/ exists v, t <= v /\ P v /\ E v).
  { induction n as [|n IH]; intros u Lu En Pu.
    - right. exists u. rewrite Nat.add_0_r in En. subst u. auto.
    - destruct (D u) as [Eu|Nu]; [right; eauto|]. destruct (Hs u Lu Pu Nu) as [Ps|g]; [|now left].
      apply (IH (S u)); [lia|lia|exact Ps]. }
  apply (K (t' - t) t); auto; lia.
Qed.

Definition answered_after (t id : nat) : Prop := exists t' name o, t <= t' /\ In (Answered id name o) (shows t').

Lemma answered_sooner t t' id : t <= t' -> answered_after t' id -> answered_after t id.
Proof. intros L (u & n & o & Lu & H). exists u, n, o. split; [lia|exact H]. Qed.

Lemma ev_dec_puts u : ev u = SPollPuts \/ ev u <> SPollPuts.
Proof. destruct (ev u); auto; right; discriminate. Qed.
Lemma ev_dec_gets u : ev u = SPollGets \/ ev u <> SPollGets.
Proof. destruct (ev u); auto; right; discriminate. Qed.

Ltac brk := match goal with
  | |- context [if some_alive ?s then _ else _] => destruct (some_alive s)
  | |- context [if s3_alive ?s ?w then _ else _] => destruct (s3_alive s w)
  | |- context [match s3_jobs ?s ?w with _ => _ end] => destruct (s3_jobs s w)
  | |- context [match s3_queue ?s with _ => _ end] => destruct (s3_queue s)
  | |- context [match rq_call ?q with _ => _ end] => destruct (rq_call q)
  | c : call |- _ => destruct c
  end.
Ltac stp := rewrite after_S; match goal with |- context [ev ?u] => destruct (ev u) eqn:? end; cbn [s3_step];
  repeat brk; cbn [fst s3_puts s3_gets s3_results set_bucket set_jobs drain_results is_put rs_out error_of]; rewrite ?in_app_iff; auto.

Lemma put_answered t r : In r (s3_puts (after t)) -> answered_after t (rs_id r).
Proof.
  intros H. destruct (until (fun u => ev u = SPollPuts) (fun u => In r (s3_puts (after u))) False t ev_dec_puts (sk_puts _ _ _ KR) H) as [[]|(u & L & Hu & E)].
  - intros u L Hu N. left. revert Hu. stp. now contradict N.
  - exists u, (rs_name r), (rs_out r). split; [exact L|]. unfold StoreSpec.shows. rewrite E. cbn [s3_step snd].
    apply in_map_iff. exists r. split; [reflexivity|]. cbn. rewrite in_app_iff. now left.
Qed.
Lemma get_answered t r : In r (s3_gets (after t)) -> answered_after t (rs_id r).
Proof.
  intros H. destruct (until (fun u => ev u = SPollGets) (fun u => In r (s3_gets (after u))) False t ev_dec_gets (sk_gets _ _ _ KR) H) as [[]|(u & L & Hu & E)].
  - intros u L Hu N. left. revert Hu. stp. now contradict N.
  - exists u, (rs_name r), (rs_out r). split; [exact L|]. unfold StoreSpec.shows. rewrite E. cbn [s3_step snd].
    apply in_map_iff. exists r. split; [reflexivity|]. cbn. rewrite in_app_iff. now left.
Qed.

Lemma result_answered t r : In r (s3_results (after t)) -> answered_after t (rs_id r).
Proof.
  intros H.
  destruct (until (fun u => ev u = SPollPuts \/ ev u = SPollGets) (fun u => In r (s3_results (after u))) False t) as [[]|(u & L & Hu & E)]; auto.
  - intros u. destruct (ev_dec_puts u), (ev_dec_gets u); tauto.
  - intros u. destruct (sk_puts _ _ _ KR u) as (u' & L & E). eauto.
  - intros u L Hu N. left. revert Hu. stp; exfalso; tauto.
  - apply (answered_sooner t u _ L). destruct (is_put r) eqn:Ep, E as [E|E].
    + exists u, (rs_name r), (rs_out r). split; [lia|]. unfold StoreSpec.shows. rewrite E. cbn [s3_step snd].
      apply in_map_iff. exists r. split; [reflexivity|]. cbn. rewrite in_app_iff, filter_In. auto.
    + apply (answered_sooner u (S u)); [lia|]. apply put_answered. rewrite after_S, E. cbn. rewrite in_app_iff, filter_In. auto.
    + apply (answered_sooner u (S u)); [lia|]. apply get_answered. rewrite after_S, E. cbn. rewrite in_app_iff, filter_In, Ep. auto.
    + exists u, (rs_name r), (rs_out r). split; [lia|]. unfold StoreSpec.shows. rewrite E. cbn [s3_step snd].
      apply in_map_iff. exists r. split; [reflexivity|]. cbn. rewrite in_app_iff, filter_In, Ep. auto.
Qed.

Lemma job_step u w j : s3_jobs (after u) w = Some j ->
  (exists j', s3_jobs (after (S u)) w = Some j' /\ rq_id (jb_req j') = rq_id (jb_req j)) \/
  answered_after (S u) (rq_id (jb_req j)).
Proof.
  intros H. pose proof (sk_alive _ _ _ KR u) as D. rewrite after_S.
  destruct (ev u) as [c|w'|w'|w' ok| | |w'|k v] eqn:E; cbn [s3_step]; try (left; exists j; split; [exact H|reflexivity]).
  - left. exists j. split; [|reflexivity]. destruct (some_alive (after u)); exact H.
  - left. exists j. split; [|reflexivity]. destruct (s3_alive (after u) w'); [|exact H].
    destruct (s3_jobs (after u) w') eqn:Ej; [exact H|]. destruct (s3_queue (after u)); [exact H|]. cbn. rewrite upd_at.
    destruct (w =? w') eqn:Ew; [apply Nat.eqb_eq in Ew; congruence|exact H].
  - left. destruct (s3_jobs (after u) w') as [j'|] eqn:Ej; [|exists j; split; [exact H|reflexivity]].
    destruct (rq_call (jb_req j')); cbn; rewrite upd_at; (destruct (w =? w') eqn:Ew; [|exists j; split; [exact H|reflexivity]]);
      apply Nat.eqb_eq in Ew; subst w'; eexists; split; [reflexivity| |reflexivity|]; cbn; congruence.
  - destruct (s3_jobs (after u) w') as [j'|] eqn:Ej; [|left; exists j; split; [exact H|reflexivity]].
    destruct (w =? w') eqn:Ew.
    + right. apply Nat.eqb_eq in Ew. subst w'. assert (j' = j) as -> by congruence.
      match type of E with ev u = SDone w ok =>
        set (s1 := fst (s3_step (after u) (SDone w ok))) end.
      assert (Hr : exists r, In r (s3_results s1) /\ rs_id r = rq_id (jb_req j)).
      { unfold s1. cbn [s3_step]. rewrite H. destruct (rq_call (jb_req j)); cbn; eexists; rewrite in_app_iff; split; [right; left; reflexivity|reflexivity|right; left; reflexivity|reflexivity]. }
      destruct Hr as (r & Hr & <-). apply result_answered. rewrite after_S, E. exact Hr.
    + left. exists j. split; [|reflexivity]. destruct (match rq_call (jb_req j') with Put _ _ => _ | Get _ => _ end); cbn. rewrite upd_at, Ew. exact H.
  - exfalso. apply (D w'). reflexivity.
Qed.

Lemma job_answered t w j : s3_jobs (after t) w = Some j -> answered_after t (rq_id (jb_req j)).
Proof.
  intros H.
  destruct (until (fun u => s3_jobs (after u) w = None)
     (fun u => exists j', s3_jobs (after u) w = Some j' /\ rq_id (jb_req j') = rq_id (jb_req j))
     (answered_after t (rq_id (jb_req j))) t) as [G|(u & L & (j' & Hj & _) & E)]; auto.
  - intros u. destruct (s3_jobs (after u) w); [right; discriminate|now left].
  - apply (sk_done _ _ _ KR).
  - eauto.
  - intros u L (j' & Hj & <-) _. destruct (job_step u w j' Hj) as [(j2 & A & B)|A]; [left; exists j2; split; [exact A|congruence]|right].
    apply (answered_sooner t (S u)); [lia|exact A].
  - congruence.
Qed.

(** The queue only loses its head. *)
Lemma queue_step u pre q post : s3_queue (after u) = pre ++ q :: post ->
  (exists post', s3_queue (after (S u)) = pre ++ q :: post') \/
  (exists h pre', pre = h :: pre' /\ s3_queue (after (S u)) = pre' ++ q :: post) \/
  answered_after (S u) (rq_id q).
Proof.
  intros H. pose proof (sk_alive _ _ _ KR u) as D. rewrite after_S.
  destruct (ev u) as [c|w'|w'|w' ok| | |w'|k v] eqn:E; cbn [s3_step]; try (left; exists post; exact H).
  - left. destruct (some_alive (after u)); cbn; [|exists post; exact H]. rewrite H. eexists. rewrite <- app_assoc. reflexivity.
  - destruct (s3_alive (after u) w') eqn:Ea; [|left; exists post; exact H].
    destruct (s3_jobs (after u) w') eqn:Ej; [left; exists post; exact H|].
    destruct (s3_queue (after u)) as [|h rest] eqn:Eq; [destruct pre; discriminate|].
    destruct pre as [|h' pre']; cbn in H; injection H as -> ->.
    + right. right. apply (job_answered (S u) w' (mk_job q None)). rewrite after_S, E. cbn [s3_step]. rewrite Ea, Ej, Eq. cbn. apply upd_eq.
    + right. left. exists h', pre'. split; reflexivity.
  - left. exists post. destruct (s3_jobs (after u) w') as [j'|]; [|exact H]. destruct (rq_call (jb_req j')); exact H.
  - left. exists post. destruct (s3_jobs (after u) w') as [j'|]; [|exact H]. destruct (match rq_call (jb_req j') with Put _ _ => _ | Get _ => _ end); exact H.
  - exfalso. apply (D w'). reflexivity.
Qed.

Lemma workers_alive u w : w < worker_count threads -> s3_alive (after u) w = true.
Proof.
  intros L. induction u as [|u IH]; [cbn; now apply Nat.ltb_lt|]. pose proof (sk_alive _ _ _ KR u) as D.
  rewrite after_S. destruct (ev u) as [c|w'|w'|w' ok| | |w'|k v] eqn:E; cbn [s3_step]; auto.
  - destruct (some_alive (after u)); exact IH.
  - destruct (s3_alive (after u) w'); [|exact IH]. destruct (s3_jobs (after u) w'), (s3_queue (after u)); exact IH.
  - destruct (s3_jobs (after u) w') as [j'|]; [|exact IH]. destruct (rq_call (jb_req j')); exact IH.
  - destruct (s3_jobs (after u) w') as [j'|]; [|exact IH]. destruct (match rq_call (jb_req j') with Put _ _ => _ | Get _ => _ end); exact IH.
  - exfalso. apply (D w'). reflexivity.
Qed.

Lemma one_worker : 0 < worker_count threads.
Proof. unfold worker_count. destruct (threads <? 1) eqn:E1, (128 <? threads) eqn:E2; lia. Qed.

(** Worker 0 becomes free and takes a request. *)
Lemma queued_answered n : forall t pre q post, length pre = n -> s3_queue (after t) = pre ++ q :: post -> answered_after t (rq_id q).
Proof.
  induction n as [n IH] using lt_wf_ind. intros t pre q post Hn H.
  set (G := answered_after t (rq_id q)).
  assert (Step : forall u post', t <= u -> s3_queue (after u) = pre ++ q :: post' -> (exists post2, s3_queue (after (S u)) = pre ++ q :: post2) \/ G).
  { intros u p' L Hu. destruct (queue_step u pre q p' Hu) as [A|[(h & pre' & E & A)|A]]; [now left| |]; right.
    - apply (answered_sooner t (S u)); [lia|]. apply (IH (length pre')) with (pre := pre') (post := p'); auto. subst pre. cbn in Hn. lia.
    - apply (answered_sooner t (S u)); [lia|exact A]. }
  destruct (until (fun u => s3_jobs (after u) 0 = None) (fun u => exists p', s3_queue (after u) = pre ++ q :: p') G t) as [A|(u & L & (p' & Hu) & E)]; auto.
  { intros u. destruct (s3_jobs (after u) 0); [right; discriminate|now left]. }
  { apply (sk_done _ _ _ KR). }
  { eauto. }
  { intros u L (p' & Hu) _. exact (Step u p' L Hu). }
  destruct (until (fun v => ev v = STake 0) (fun v => s3_jobs (after v) 0 = None /\ exists p', s3_queue (after v) = pre ++ q :: p') G u) as [A|(v & L2 & (Hj & p2 & Hq) & E2)]; auto.
  { intros v. destruct (ev v) as [| [|w']| | | | | |]; auto; right; discriminate. }
  { apply (sk_take _ _ _ KR). apply one_worker. }
  { split; eauto. }
  { intros v L2 (Hj & p2 & Hq) N. destruct (Step v p2 ltac:(lia) Hq) as [A|A]; [left; split; [|exact A]|now right].
    pose proof (sk_alive _ _ _ KR v) as D. rewrite after_S. destruct (ev v) as [c|w'|w'|w' ok| | |w'|k x] eqn:Ev; cbn [s3_step]; auto.
    - destruct (some_alive (after v)); exact Hj.
    - destruct (s3_alive (after v) w'); [|exact Hj]. destruct (s3_jobs (after v) w'); [exact Hj|]. destruct (s3_queue (after v)); [exact Hj|].
      cbn. rewrite upd_at. destruct (0 =? w') eqn:Ew; [apply Nat.eqb_eq in Ew; congruence|exact Hj].
    - destruct (s3_jobs (after v) w') as [j'|] eqn:Ej; [|exact Hj]. destruct (rq_call (jb_req j')); cbn; rewrite upd_at;
        (destruct (0 =? w') eqn:Ew; [apply Nat.eqb_eq in Ew; congruence|exact Hj]).
    - destruct (s3_jobs (after v) w') as [j'|] eqn:Ej; [|exact Hj]. destruct (match rq_call (jb_req j') with Put _ _ => _ | Get _ => _ end). cbn. rewrite upd_at.
      destruct (0 =? w'); [reflexivity|exact Hj].
    - exfalso. apply (D w'). reflexivity. }
  apply (answered_sooner t (S v)); [lia|].
  assert (Al : s3_alive (after v) 0 = true) by (apply workers_alive, one_worker).
  destruct pre as [|h pre'].
  - apply (job_answered (S v) 0 (mk_job q None)). rewrite after_S, E2. cbn [s3_step]. rewrite Al, Hj, Hq. cbn. reflexivity.
  - apply (IH (length pre')) with (pre := pre') (post := p2); [cbn in Hn; lia|reflexivity|].
    rewrite after_S, E2. cbn [s3_step]. rewrite Al, Hj, Hq. reflexivity.
Qed.

Lemma every_call t id c : called id t c -> answered_after (S t) id.
Proof.
  intros H. apply called_now in H as [E ->].
  assert (Al : some_alive (after t) = true).
  { unfold some_alive. apply existsb_exists. exists 0. split; [|apply workers_alive, one_worker].
    apply in_seq. rewrite (j_workers _ _ (J_all t)). pose proof one_worker. lia. }
  apply (queued_answered (length (s3_queue (after t))) (S t) (s3_queue (after t)) (mk_req (s3_next (after t)) c (key_with_prefix (sp_prefix (after t)) (call_name c))) []); [reflexivity|].
  rewrite after_S, E. cbn [s3_step]. rewrite Al. reflexivity.
Qed.
End Live.
End Run.
