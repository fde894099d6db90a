(** C53: archives under different S3 prefixes do not interfere.
    C54: the S3 store answers every request once, with its own outcome. *)
From Coq Require Import String List Arith NArith Bool Lia ZifyBool ZifyNat ZifyN.
From Verif Require Import Base BaseFacts ArchiveModel StoreModel StoreSpec StoreProofs.
Import ListNotations.

(** ** C53 *)

(** Every configured prefix stands for exactly one folder. *)
Theorem C53_prefix : forall prefix,
  exists f, folder prefix f /\ (forall f', folder prefix f' -> f' = f) /\
    forall name, key_with_prefix (normalized_prefix prefix) name = f ++ name.
Proof.
  intros prefix. destruct (folder_exists prefix) as [f F]. exists f. split; [exact F|].
  split; [intros f' F'; exact (folder_unique prefix f' f F' F)|]. now apply folder_key.
Qed.

(** The objects an archiver names. *)
Lemma archiver_names : archive_name META_NAME /\ archive_name MAPPING_NAME /\
  forall h, h <> [] -> Forall (fun b => (b < 256)%N) h -> archive_name (object_key h).
Proof.
  split; [now left|]. split; [right; now left|]. intros h Hn Hb. right. right. exists (hex h). split; [reflexivity|].
  split; [destruct h; [congruence|discriminate]|].
  assert (D : forall d, (d < 16)%N -> hex_digit (hexdigit d)) by (intros d Hd; unfold hex_digit, hexdigit; destruct (d <? 10)%N eqn:E; lia).
  unfold hex. apply Forall_flat_map. eapply Forall_impl; [|exact Hb]. cbn. intros b Hl.
  pose proof (N.div_mod b 16 ltac:(discriminate)). pose proof (N.mod_lt b 16 ltac:(discriminate)).
  constructor; [apply D; lia|]. constructor; [apply D; lia|constructor].
Qed.

Lemma app_cases {A} (a b c d : list A) : a ++ b = c ++ d ->
  (exists e, c = a ++ e /\ b = e ++ d) \/ (exists e, a = c ++ e /\ d = e ++ b).
Proof.
  revert c. induction a as [|x a IH]; intros c H; cbn in *; [left; exists c; split; auto|].
  destruct c as [|y c]; cbn in H; [right; exists (x :: a); auto|]. injection H as <- H.
  destruct (IH c H) as [(e & -> & E)|(e & -> & E)]; [left|right]; exists e; auto.
Qed.

Lemma name_without_slash n : archive_name n -> ~ In SLASH n -> n = META_NAME \/ n = MAPPING_NAME.
Proof.
  intros [->|[->|(h & -> & _)]] H; auto. exfalso. apply H. cbn. auto 10.
Qed.

(** An archive's object below a folder of another archive is never that archive's. *)
Lemma nested_apart e n1 n2 : e <> [] -> (exists p, e = p ++ [SLASH]) -> archive_name n1 -> archive_name n2 -> n2 <> e ++ n1.
Proof.
  intros He (p & ->) N1 N2 E.
  assert (S : In SLASH n2) by (rewrite E, !in_app_iff; left; right; now left).
  destruct N2 as [->|[->|(h & -> & Hh & Hd)]].
  - cbn in S. repeat (destruct S as [S|S]; [discriminate S|]). exact S.
  - cbn in S. repeat (destruct S as [S|S]; [discriminate S|]). exact S.
  - assert (Hns : ~ In SLASH h).
    { intros Hi. rewrite Forall_forall in Hd. specialize (Hd _ Hi). unfold hex_digit, SLASH in Hd. lia. }
    assert (Ep : p = ascii_bytes "data" /\ n1 = h).
    { change (ascii_bytes "data/") with (ascii_bytes "data" ++ [SLASH]) in E. rewrite <- !app_assoc in E. cbn [app] in E.
      clear - E Hns.
      assert (G : forall a b : list byte, a ++ SLASH :: h = b ++ SLASH :: n1 -> ~ In SLASH a -> a = b /\ h = n1).
      { intros a b H Na. revert b H. induction a as [|x a IH]; intros [|y b] H; cbn in H.
        - injection H as ->. auto.
        - exfalso. injection H as <- H. apply Hns. rewrite H, in_app_iff. right. now left.
        - exfalso. injection H as -> H. apply Na. now left.
        - injection H as <- H. destruct (IH (fun X => Na (or_intror X)) b H) as [-> ->]. auto. }
      destruct (G (ascii_bytes "data") p E) as [A B]; [|auto].
      cbn. intros S. repeat (destruct S as [S|S]; [discriminate S|]). exact S. }
    destruct Ep as [_ ->]. destruct (name_without_slash h N1 Hns) as [->| ->].
    + rewrite Forall_forall in Hd. assert (X : hex_digit 109%N) by (apply Hd; cbn; auto). unfold hex_digit in X. lia.
    + rewrite Forall_forall in Hd. assert (X : hex_digit 115%N) by (apply Hd; cbn; auto). unfold hex_digit in X. lia.
Qed.

(** Archives in different folders have no object in common. *)
Theorem C53_archives_apart : forall p1 p2 f1 f2 n1 n2,
  folder p1 f1 -> folder p2 f2 -> f1 <> f2 -> archive_name n1 -> archive_name n2 -> f1 ++ n1 <> f2 ++ n2.
Proof.
  assert (Ends : forall p f a e, folder p f -> f = a ++ e -> e <> [] -> exists q, e = q ++ [SLASH]).
  { intros p f a e F -> He. destruct (folder_slash _ _ F) as [H|(q & H & _)].
    - apply app_eq_nil in H as [_ H]. congruence.
    - destruct (@exists_last _ e He) as (e' & x & ->). rewrite app_assoc in H. apply app_inj_tail in H as [_ ->]. eauto. }
  intros p1 p2 f1 f2 n1 n2 F1 F2 D N1 N2 E. destruct (app_cases _ _ _ _ E) as [(e & E1 & E2)|(e & E1 & E2)].
  - assert (He : e <> []) by (intros ->; rewrite app_nil_r in E1; congruence).
    exact (nested_apart e n2 n1 He (Ends p2 f2 f1 e F2 E1 He) N2 N1 E2).
  - assert (He : e <> []) by (intros ->; rewrite app_nil_r in E1; congruence).
    exact (nested_apart e n1 n2 He (Ends p1 f1 f2 e F1 E1 He) N1 N2 E2).
Qed.

(** ... so a store that is used for an archive leaves the objects of every archive in
    another folder alone, whatever the workers do. *)
Theorem C53_others_untouched : forall prefix threads b0 ev f prefix' f' n',
  folder prefix f -> folder prefix' f' -> f <> f' -> archive_name n' ->
  (forall t n d, ev t = SCall (Put n d) -> archive_name n) ->
  (forall t v, ev t <> SOther (f' ++ n') v) ->
  forall t, s3_bucket (after (s3_new prefix threads b0) ev t) (f' ++ n') = b0 (f' ++ n').
Proof.
  intros prefix threads b0 ev f prefix' f' n' F F' D N' Hn Ho t. induction t as [|t IH]; [reflexivity|].
  rewrite <- IH. set (s0 := s3_new prefix threads b0).
  assert (Dec : forall x y : option (list byte), {x = y} + {x <> y}) by repeat decide equality.
  destruct (Dec (s3_bucket (after s0 ev (S t)) (f' ++ n')) (s3_bucket (after s0 ev t) (f' ++ n'))) as [E|E]; [exact E|exfalso].
  destruct (change prefix threads b0 ev f F t (f' ++ n') E) as [(v & Ev)|(id & n & d & t0 & Ek & _ & _ & C & _)]; [exact (Ho t v Ev)|].
  apply called_now in C as [Ev _]. apply (C53_archives_apart prefix prefix' f f' n n'); auto.
  eapply Hn. exact Ev.
Qed.

(** ** C54 *)

(** Every answer belongs to exactly one earlier call, has its name, and tells what
    happened to that very object between the call and the answer. *)
Theorem C54_answers : forall prefix threads b0 ev f t id name o,
  folder prefix f -> let s0 := s3_new prefix threads b0 in
  In (Answered id name o) (shows s0 ev t) ->
  exists t0 c, t0 < t /\ In (Called id c) (shows s0 ev t0) /\ name = call_name c /\ right_outcome s0 ev f t0 t c o /\
    forall t' c', In (Called id c') (shows s0 ev t') -> t' = t0 /\ c' = c.
Proof.
  intros prefix threads b0 ev f t id name o F s0 H.
  destruct (answer_right prefix threads b0 ev f F t id name o H) as (t0 & c & L & C & N & R).
  exists t0, c. split; [exact L|]. split; [exact C|]. split; [exact N|]. split; [exact R|].
  intros t' c' C'. exact (called_unique prefix threads b0 ev id t' c' t0 c C' C).
Qed.

(** No call is answered twice. *)
Theorem C54_at_most_once : forall prefix threads b0 es,
  NoDup (flat_map (fun x => match x with Answered id _ _ => [id] | Called _ _ => [] end)
           (snd (s3_run (s3_new prefix threads b0) es))).
Proof.
  intros prefix threads b0 es. destruct (folder_exists prefix) as [f F].
  pose proof (answered_once prefix threads b0 (fun t => nth t es SPollPuts) f F (List.length es)) as H.
  unfold ids_until, ids_of in H. replace (map _ (seq 0 (List.length es))) with es in H; [exact H|].
  clear. induction es as [|e es IH]; [reflexivity|]. cbn. f_equal. now rewrite <- seq_shift, map_map.
Qed.

(** Every call is answered, if the workers and the polling go on. *)
Theorem C54_every_call_answered : forall prefix threads b0 ev,
  let s0 := s3_new prefix threads b0 in
  store_keeps_running s0 ev (Nat.max 1 (Nat.min 128 threads)) ->
  forall t id c, In (Called id c) (shows s0 ev t) ->
  exists t' name o, t < t' /\ In (Answered id name o) (shows s0 ev t').
Proof.
  intros prefix threads b0 ev s0 KR t id c H. destruct (folder_exists prefix) as [f F].
  assert (W : worker_count threads = Nat.max 1 (Nat.min 128 threads)).
  { unfold worker_count. destruct (threads <? 1) eqn:E1, (128 <? threads) eqn:E2; lia. }
  rewrite <- W in KR. exact (every_call prefix threads b0 ev f F KR t id c H).
Qed.

(** The bucket changes only by puts that were called and are not answered yet (apart
    from what others do); so no object ever has contents nobody put there, and
    nothing outside the folder is touched. *)
Theorem C54_changes : forall prefix threads b0 ev f t k,
  folder prefix f -> let s0 := s3_new prefix threads b0 in
  s3_bucket (after s0 ev (S t)) k <> s3_bucket (after s0 ev t) k ->
  (exists v, ev t = SOther k v) \/
  exists id n d t0, k = f ++ n /\ s3_bucket (after s0 ev (S t)) k = Some d /\ t0 < t /\
    In (Called id (Put n d)) (shows s0 ev t0) /\
    forall t' name o, t' < t -> ~ In (Answered id name o) (shows s0 ev t').
Proof.
  intros prefix threads b0 ev f t k F s0 H.
  destruct (change prefix threads b0 ev f F t k H) as [A|(id & n & d & t0 & A & B & C & D & E)]; [now left|right].
  exists id, n, d, t0. repeat split; auto. intros t' name o L Hi. apply E.
  clear - L Hi. induction t as [|t IH]; [lia|]. rewrite ids_until_S, in_app_iff.
  destruct (Nat.eq_dec t' t) as [->|]; [right|left; apply IH; lia].
  unfold ids_of. apply in_flat_map. exists (Answered id name o). split; [exact Hi|now left].
Qed.

(** At most the configured number of requests, and never more than 128, are worked
    on at the same time. *)
Theorem C54_concurrency : forall prefix threads b0 ev t ws,
  NoDup ws -> (forall w, In w ws -> s3_jobs (after (s3_new prefix threads b0) ev t) w <> None) ->
  List.length ws <= Nat.max 1 (Nat.min 128 threads).
Proof.
  intros prefix threads b0 ev t ws ND H. destruct (folder_exists prefix) as [f F].
  pose proof (J_all prefix threads b0 ev f F t) as K.
  assert (W : worker_count threads = Nat.max 1 (Nat.min 128 threads)).
  { unfold worker_count. destruct (threads <? 1) eqn:E1, (128 <? threads) eqn:E2; lia. }
  rewrite <- W, <- (seq_length (worker_count threads) 0). apply NoDup_incl_length; [exact ND|].
  intros w Hw. apply in_seq. split; [lia|]. apply (j_alive _ _ _ _ _ _ _ K), (j_busy _ _ _ _ _ _ _ K), H, Hw.
Qed.

(** If the workers end while requests are waiting, those are never answered: the
    store reports neither success nor failure. *)
Definition dead_put : list sevent := [SCall (Put META_NAME [1%N]); SDie 0].
Theorem C54_refuted_dead_workers : forall es,
  (forall name o, ~ In (Answered 0 name o) (snd (s3_run (s3_new None 1 (fun _ => None)) (dead_put ++ es)))) /\
  In (Called 0 (Put META_NAME [1%N])) (snd (s3_run (s3_new None 1 (fun _ => None)) (dead_put ++ es))).
Proof.
  intros es. rewrite s3_run_app. cbn [snd].
  assert (G : forall es s, s3_alive s 0 = false -> sp_workers s = 1 -> (forall w, s3_jobs s w = None) -> s3_queue s = [] ->
    s3_next s > 0 -> (forall r, In r (s3_results s ++ s3_puts s ++ s3_gets s) -> rs_id r > 0) ->
    forall name o, ~ In (Answered 0 name o) (snd (s3_run s es))).
  { clear. induction es as [|e es IH]; intros s A W Jn Q Nx R name o H; [exact H|].
    cbn [s3_run] in H. destruct (s3_step s e) as [s1 o1] eqn:E. specialize (IH s1).
    destruct (s3_run s1 es) as [s2 o2]. cbn [snd] in *. rewrite in_app_iff in H.
    assert (K : (s3_alive s1 0 = false /\ sp_workers s1 = 1 /\ (forall w, s3_jobs s1 w = None) /\ s3_queue s1 = [] /\
      s3_next s1 > 0 /\ (forall r, In r (s3_results s1 ++ s3_puts s1 ++ s3_gets s1) -> rs_id r > 0)) /\ ~ In (Answered 0 name o) o1).
    { assert (SA : some_alive s = false) by (unfold some_alive; rewrite W; cbn; now rewrite A).
      assert (F : forall p l, (forall r, In r l -> rs_id r > 0) -> forall r, In r (filter p l) -> rs_id r > 0)
        by (intros p l Hl r Hr; apply filter_In in Hr as [Hr _]; auto).
      assert (Rr : forall r, In r (s3_results s) -> rs_id r > 0) by (intros r Hr; apply R; rewrite !in_app_iff; auto).
      assert (Rp : forall r, In r (s3_puts s) -> rs_id r > 0) by (intros r Hr; apply R; rewrite !in_app_iff; auto).
      assert (Rg : forall r, In r (s3_gets s) -> rs_id r > 0) by (intros r Hr; apply R; rewrite !in_app_iff; auto).
      assert (An : forall l, (forall r, In r l -> rs_id r > 0) -> ~ In (Answered 0 name o) (answers l)).
      { intros l Hl Hi. apply in_map_iff in Hi as (r & Er & Hr). injection Er as E0 _ _. specialize (Hl r Hr). lia. }
      destruct e as [c|w|w|w ok| | |w|k v]; cbn [s3_step] in E.
      - rewrite SA in E. destruct c as [n d|n]; injection E as <- <-; cbn; repeat split; auto; try lia;
          try (intros r; rewrite !in_app_iff; cbn; intros [Hr|[[Hr|[<-|[]]]|Hr]]; auto);
          try (intros r; rewrite !in_app_iff; cbn; intros [Hr|[Hr|[Hr|[<-|[]]]]]; auto);
          try (intros [X|[]]; discriminate).
      - assert (E' : (s, @nil sobs) = (s1, o1)) by (destruct (s3_alive s w); [rewrite Jn, Q in E|]; exact E).
        injection E' as <- <-. repeat split; auto.
      - rewrite Jn in E. injection E as <- <-. repeat split; auto.
      - rewrite Jn in E. injection E as <- <-. repeat split; auto.
      - injection E as <- <-. split; [cbn; repeat split; auto|].
        + intros r Hr. cbn in Hr. repeat (apply in_app_iff in Hr as [Hr|Hr]); try (apply filter_In in Hr as [Hr _]); auto; destruct Hr.
        + apply An. intros r Hr. cbn in Hr. apply in_app_iff in Hr as [Hr|Hr]; try (apply filter_In in Hr as [Hr _]); auto.
      - injection E as <- <-. split; [cbn; repeat split; auto|].
        + intros r Hr. cbn in Hr. repeat (apply in_app_iff in Hr as [Hr|Hr]); try (apply filter_In in Hr as [Hr _]); auto; destruct Hr.
        + apply An. intros r Hr. cbn in Hr. apply in_app_iff in Hr as [Hr|Hr]; try (apply filter_In in Hr as [Hr _]); auto.
      - injection E as <- <-. cbn. split; [|tauto]. rewrite W. repeat split; auto.
        + unfold upd. destruct w; cbn; auto.
        + intros w'. unfold upd. destruct (w' =? w); auto.
        + rewrite Q. match goal with |- (if ?b then _ else _) = _ => now destruct b | |- _ => idtac end.
      - injection E as <- <-. cbn. repeat split; auto. }
    destruct K as [(K1 & K2 & K3 & K4 & K5 & K6) K7]. destruct H as [H|H]; [exact (K7 H)|]. exact (IH K1 K2 K3 K4 K5 K6 name o H). }
  split.
  - intros name o H. rewrite in_app_iff in H. destruct H as [H|H].
    + cbn in H. destruct H as [H|[]]. discriminate.
    + revert H. apply G; cbn; auto; try lia; try tauto. intros w. unfold upd. now destruct (w =? 0).
  - apply in_app_iff. left. cbn. auto.
Qed.

(** A call that is made when all workers have ended is not lost: the next poll of its
    kind reports its failure. *)
Theorem C54_dead_store_fails_calls : forall prefix threads b0 es c mid,
  let s := fst (s3_run (s3_new prefix threads b0) es) in
  (forall w, s3_alive s w = false) ->
  let poll := match c with Put _ _ => SPollPuts | Get _ => SPollGets end in
  let failure := match c with Put _ _ => OPut false | Get _ => OGet None end in
  (forall e, In e mid -> e <> poll) ->
  In (Answered (s3_next s) (call_name c) failure) (snd (s3_run s (SCall c :: mid ++ [poll]))).
Proof.
  intros prefix threads b0 es c mid s A poll failure M.
  assert (SA : some_alive s = false).
  { unfold some_alive. apply not_true_is_false. intros H. apply existsb_exists in H as (w & _ & H). rewrite A in H. discriminate. }
  set (r := mk_result (s3_next s) (call_name c) failure).
  assert (P : is_put r = match c with Put _ _ => true | Get _ => false end) by (unfold r, failure; destruct c; reflexivity).
  cbn [s3_run s3_step]. rewrite SA. 
  match goal with |- context [let (_, _) := s3_run ?x _ in _] => set (s1 := x) end.
  assert (I : In r (if is_put r then s3_puts s1 else s3_gets s1)).
  { unfold s1. rewrite P. unfold r, failure, error_of, is_put. destruct c; cbn; apply in_app_iff; right; now left. }
  assert (Pl : poll = if is_put r then SPollPuts else SPollGets) by (rewrite P; unfold poll; destruct c; reflexivity).
  clearbody s1. destruct (s3_run s1 (mid ++ [poll])) as [s2 o2] eqn:E. cbn [snd]. apply in_app_iff. right.
  change o2 with (snd (s2, o2)). rewrite <- E. clear E s2 o2.
  change (Answered (s3_next s) (call_name c) failure) with (Answered (rs_id r) (rs_name r) (rs_out r)).
  rewrite Pl in *. clear Pl poll P SA A. clearbody r failure. revert s1 I M. induction mid as [|e mid IH]; intros s1 I M.
  - cbn [app s3_run]. destruct (is_put r); cbn [s3_step snd]; rewrite app_nil_r; unfold answers, drain_results; cbn [s3_puts s3_gets];
      apply (in_map (fun r => Answered (rs_id r) (rs_name r) (rs_out r))), in_app_iff; now left.
  - cbn [app s3_run]. destruct (s3_step s1 e) as [s2 o] eqn:E. specialize (IH s2). destruct (s3_run s2 (mid ++ [_])) as [s3' o3] eqn:E3. cbn [snd] in *.
    apply in_app_iff. right. apply IH; [|intros e' He'; apply M; now right].
    assert (Ne : e <> if is_put r then SPollPuts else SPollGets) by (apply M; now left). clear - E I Ne.
    destruct e as [c|w|w|w ok| | |w|k v]; cbn [s3_step] in E.
    + destruct (some_alive s1); injection E as <- <-; cbn [s3_puts s3_gets]; [exact I|].
      destruct (is_put r), (is_put (mk_result (s3_next s1) (call_name c) (error_of c))); try apply in_app_iff; auto.
    + destruct (s3_alive s1 w); [|injection E as <- <-; exact I].
      destruct (s3_jobs s1 w); [injection E as <- <-; exact I|]. destruct (s3_queue s1); injection E as <- <-; exact I.
    + destruct (s3_jobs s1 w) as [j|]; [|injection E as <- <-; exact I]. destruct (rq_call (jb_req j)); injection E as <- <-; exact I.
    + destruct (s3_jobs s1 w) as [j|]; [|injection E as <- <-; exact I].
      destruct (rq_call (jb_req j)); injection E as <- <-; exact I.
    + injection E as <- <-. destruct (is_put r); [congruence|]. cbn. apply in_app_iff. now left.
    + injection E as <- <-. destruct (is_put r); [|congruence]. cbn. apply in_app_iff. now left.
    + injection E as <- <-. exact I.
    + injection E as <- <-. exact I.
Qed.

(** ** Concrete cases *)

Example C54_dead_store_nonvacuous :
  let s := fst (s3_run (s3_new None 2 (fun _ => None)) [SDie 0; SDie 1]) in
  (forall w, s3_alive s w = false) /\
  snd (s3_run s [SCall (Get META_NAME); SPollPuts; SPollGets]) = [Called 0 (Get META_NAME); Answered 0 META_NAME (OGet None)].
Proof. split; [|vm_compute; reflexivity]. intros [|[|w]]; reflexivity. Qed.

(** "/backups//vm1/" and no prefix; slashes inside are kept. *)
Example C53_nonvacuous :
  folder (Some (ascii_bytes "/backups//vm1/")) (ascii_bytes "backups//vm1/") /\
  folder (Some (ascii_bytes "//")) [] /\ folder (Some (ascii_bytes "data")) (ascii_bytes "data/") /\
  archive_name (object_key [171; 205]%N) /\ object_key [171; 205]%N = ascii_bytes "data/abcd" /\
  key_with_prefix (normalized_prefix (Some (ascii_bytes "data"))) META_NAME = ascii_bytes "data/metadata.json".
Proof.
  split; [apply (folder_named 1 (ascii_bytes "backups//vm1") 1); discriminate|].
  split; [apply (folder_slashes 2)|]. split; [apply (folder_named 0 (ascii_bytes "data") 0); discriminate|].
  split; [|split; reflexivity]. apply archiver_names; [discriminate|]. repeat constructor.
Qed.

(** Two workers, a put and a get of the same object that overlap; then for ever
    nothing but turns. *)
Definition st_start : s3 := s3_new (Some (ascii_bytes "vm1/")) 2 (fun _ => None).
Definition st_events : list sevent :=
  [SCall (Put META_NAME [7]%N); SCall (Get META_NAME); STake 1; STake 0; SEffect 1; SEffect 0; SDone 0 true; SPollGets;
   SDone 1 true; SPollPuts].
Definition st_turn (k : nat) : sevent :=
  match k mod 4 with 0 => STake 0 | 1 => STake 1 | 2 => SPollPuts | _ => SPollGets end.
Definition st_ev (t : nat) : sevent := nth t st_events (st_turn t).

Example C54_history : snd (s3_run st_start st_events) =
  [Called 0 (Put META_NAME [7]%N); Called 1 (Get META_NAME); Answered 1 META_NAME (OGet (Some [7]%N)); Answered 0 META_NAME (OPut true)].
Proof. vm_compute. reflexivity. Qed.

Example C54_nonvacuous : store_keeps_running st_start st_ev 2.
Proof.
  assert (T : forall r, r < 4 -> again (fun t => st_ev t = st_turn r)).
  { intros r Hr t. exists (4 * (t + 10) + r). split; [lia|]. unfold st_ev. rewrite nth_overflow by (cbn; lia).
    unfold st_turn. rewrite Nat.add_comm, Nat.mul_comm, Nat.mod_add by lia. reflexivity. }
  assert (Turn : forall t, 10 <= t -> st_ev t = STake 0 \/ st_ev t = STake 1 \/ st_ev t = SPollPuts \/ st_ev t = SPollGets).
  { intros t L. unfold st_ev. rewrite nth_overflow by (cbn; lia). unfold st_turn. destruct (t mod 4) as [|[|[|]]]; auto. }
  assert (Gen : forall s e, s3_queue s = [] -> (forall w, s3_jobs s w = None) ->
    e = STake 0 \/ e = STake 1 \/ e = SPollPuts \/ e = SPollGets ->
    s3_queue (fst (s3_step s e)) = [] /\ forall w, s3_jobs (fst (s3_step s e)) w = None).
  { intros s e H1 H2 [->|[->|[->| ->]]]; cbn [s3_step]; [| |split; assumption|split; assumption];
      rewrite H1, H2; destruct (s3_alive s _); split; assumption. }
  assert (Q : forall n, s3_queue (after st_start st_ev (10 + n)) = [] /\ forall w, s3_jobs (after st_start st_ev (10 + n)) w = None).
  { induction n as [|n [IH1 IH2]].
    - split; [vm_compute; reflexivity|]. intros [|[|w]]; vm_compute; reflexivity.
    - rewrite Nat.add_succ_r. unfold st_start. rewrite after_S. fold st_start.
apply Gen; [exact IH1|exact IH2|apply Turn; lia]. }
  constructor.
  - intros t w. destruct (Nat.lt_ge_cases t 10) as [L|L].
    + do 10 (destruct t as [|t]; [discriminate|]). lia.
    + destruct (Turn t L) as [E|[E|[E|E]]]; rewrite E; discriminate.
  - intros [|[|w]] L; [apply (T 0); lia|apply (T 1); lia|lia].
  - intros w t. exists (10 + t). split; [lia|]. apply Q.
  - apply (T 2). lia.
  - apply (T 3). lia.
Qed.

Print Assumptions C53_prefix.
Print Assumptions C53_archives_apart.
Print Assumptions C53_others_untouched.
Print Assumptions C54_answers.
Print Assumptions C54_at_most_once.
Print Assumptions C54_every_call_answered.
Print Assumptions C54_changes.
Print Assumptions C54_concurrency.
Print Assumptions C54_refuted_dead_workers.
Print Assumptions C54_dead_store_fails_calls.
