(** C67: with rate-limited retries switched on, an S3 request that met a rate limit
    or a transient server error is repeated, never before the configured delay has
    passed, and never more often than configured. *)
From Coq Require Import List NArith Bool Lia ZifyN ZifyBool.
From Verif Require Import RetryModel.
Import ListNotations.
Local Open Scope N_scope.

(** The statuses of the English property. *)
Definition rate_limited (r : response) : Prop :=
  exists n, r = Status n /\ In n [429; 500; 502; 503; 504].

Lemma limited_iff : forall r, limited_status r = true <-> rate_limited r.
Proof.
  intros [|n]; cbn.
  - split; [discriminate|]. intros [n [E _]]. discriminate.
  - rewrite !orb_true_iff, !N.eqb_eq. split.
    + intros H. exists n. split; auto. cbn. intuition.
    + intros [m [E H]]. injection E as <-. cbn in H. intuition.
Qed.

Lemma mul_le : forall d k, k < F -> mul_f64 d k <= d.
Proof.
  intros d k H. unfold mul_f64.
  assert (Hf : 0 < F) by (vm_compute; reflexivity).
  assert (d * k + F / 2 < (d + 1) * F).
  { assert (d * k <= d * F) by (apply N.mul_le_mono_l; lia).
    assert (F / 2 < F) by (apply N.div_lt; vm_compute; auto). nia. }
  assert ((d * k + F / 2) / F < d + 1) by (apply N.div_lt_upper_bound; lia). lia.
Qed.

Lemma drive_app : forall c pre made es a d post,
  drive c made es = pre ++ (a, d) :: post ->
  decide c (made + N.of_nat (length pre) + 1) a = d /\
  (d = None -> post = []).
Proof.
  induction pre as [|[a0 d0] pre IH]; intros made es a d post E;
    destruct es as [|e es]; cbn in E; try discriminate.
  - destruct (decide c (made + 1) e) eqn:Ed; injection E as <- <-; cbn;
      replace (made + 0 + 1) with (made + 1) by lia; split; auto; congruence.
  - destruct (decide c (made + 1) e) eqn:Ed.
    + injection E as <- <- E. destruct (IH _ _ _ _ _ E) as [H1 H2]. split; auto.
      rewrite <- H1. f_equal. cbn [length]. lia.
    + injection E as _ _ E. destruct pre; discriminate.
Qed.

Lemma drive_in : forall c es made x, In x (drive c made es) -> In (fst x) es.
Proof.
  induction es as [|e es IH]; intros made x H; cbn in H; [destruct H|].
  destruct (decide c (made + 1) e); destruct H as [<-|H]; cbn; eauto. destruct H.
Qed.

(** The settings were accepted and the feature is on.  Whatever the responses, the
    random numbers and the SDK do: the pause after a rate-limited response lies
    between the configured minimum (at least a millisecond) and the minimum plus the
    jitter. *)
Theorem C67_pause : forall c es pre a d post,
  accepted c = true -> enabled c = true ->
  (forall e, In e es -> rnd e < F) ->
  drive c 0 es = pre ++ (a, Some d) :: post -> rate_limited (resp a) ->
  1000000 <= d /\
  min_delay_ms c * 1000000 <= d <= (min_delay_ms c + jitter_ms c) * 1000000.
Proof.
  intros c es pre a d post A En Hr E L. apply limited_iff in L.
  assert (Hi : In a es).
  { apply (drive_in c es 0 (a, Some d)). rewrite E, in_app_iff. cbn. auto. }
  destruct (drive_app _ _ _ _ _ _ _ E) as [D _]. unfold decide, limited_of, classify in D.
  rewrite En in D. cbv zeta in D. rewrite L in D. cbn [min_delay jitter max_backoff] in D.
  destruct (max_attempts c <=? _); [discriminate|]. destruct (quota a); [|discriminate].
  injection D as <-. unfold from_millis, accepted in *. rewrite En in A. cbn in A.
  pose proof (mul_le (jitter_ms c * 1000000) (rnd a) (Hr _ Hi)) as M.
  remember (mul_f64 (jitter_ms c * 1000000) (rnd a)) as x. clear Heqx. lia.
Qed.

(** Such a response is always followed by another attempt while attempts are left
    (and the SDK's token bucket permits). *)
Theorem C67_retried : forall c es pre a d post,
  enabled c = true ->
  drive c 0 es = pre ++ (a, d) :: post -> rate_limited (resp a) ->
  N.of_nat (length pre) + 1 < max_attempts c -> quota a = true -> d <> None.
Proof.
  intros c es pre a d post En E L Hm Hq. apply limited_iff in L.
  destruct (drive_app _ _ _ _ _ _ _ E) as [D _]. rewrite <- D.
  unfold decide, limited_of, classify. rewrite En, L, Hq.
  destruct (max_attempts c <=? _) eqn:Em; [lia|]. discriminate.
Qed.

Lemma drive_len : forall c es made,
  made < max_attempts c -> N.of_nat (length (drive c made es)) + made <= max_attempts c.
Proof.
  induction es as [|e es IH]; intros made H; cbn [drive length]; [lia|].
  unfold decide. destruct (max_attempts c <=? made + 1) eqn:Em; [cbn [length]; lia|].
  destruct (match _ with Some d => Some d | None => builtin e end); [|cbn [length]; lia].
  destruct (quota e); [|cbn [length]; lia]. cbn [length]. specialize (IH (made + 1)). lia.
Qed.

(** Never more attempts than configured, and at least one (if the network answers at
    all). *)
Theorem C67_attempts : forall c es, accepted c = true -> es <> [] ->
  1 <= N.of_nat (length (drive c 0 es)) <= max_attempts c.
Proof.
  intros c es A Ne. unfold accepted in A. split.
  - destruct es as [|e es]; [congruence|]. cbn [drive]. destruct (decide c (0 + 1) e); cbn [length]; lia.
  - pose proof (drive_len c es 0). lia.
Qed.

(** Everything else stays with the SDK: for any other response, and for every
    response when the feature is off, whether another attempt is made is the SDK's own
    decision, and the pause is the SDK's unless that is longer than its default cap. *)
Theorem C67_rest_unchanged : forall c es pre a d post,
  drive c 0 es = pre ++ (a, d) :: post ->
  enabled c = false \/ ~ rate_limited (resp a) ->
  N.of_nat (length pre) + 1 < max_attempts c -> quota a = true ->
  (d = None <-> builtin a = None) /\
  (forall b, builtin a = Some b -> b <= SDK_MAX_BACKOFF -> d = Some b).
Proof.
  intros c es pre a d post E H Hm Hq.
  destruct (drive_app _ _ _ _ _ _ _ E) as [D _]. rewrite <- D. unfold decide.
  destruct (max_attempts c <=? _) eqn:Em; [lia|]. cbv zeta. rewrite Hq.
  assert (X : match limited_of c with Some l => classify l (resp a) (rnd a) | None => None end = None).
  { unfold limited_of. destruct (enabled c) eqn:En; auto. destruct H as [H|H]; [discriminate|].
    unfold classify. destruct (limited_status (resp a)) eqn:L; auto. apply limited_iff in L. contradiction. }
  rewrite X. destruct (builtin a) as [b|]; split; try (split; congruence); try discriminate.
  intros b' Eb Hb. injection Eb as <-. f_equal. apply N.min_l.
  unfold max_backoff. destruct (limited_of c); lia.
Qed.

(** The settings of the documentation: 1.5 s and 1 s of jitter, three attempts.  A 429
    is retried after 2 s, a 503 after 1.5 s, the third attempt succeeds. *)
Example C67_nonvacuous :
  let c := {| max_attempts := 3; enabled := true; min_delay_ms := 1500; jitter_ms := 1000 |} in
  let a1 := {| resp := Status 429; builtin := None; rnd := 2 ^ 51; quota := true |} in
  let a2 := {| resp := Status 503; builtin := Some 1000; rnd := 0; quota := true |} in
  let a3 := {| resp := Status 200; builtin := None; rnd := 7; quota := true |} in
  accepted c = true /\ rate_limited (resp a1) /\
  drive c 0 [a1; a2; a3; a1] = [(a1, Some 2000000000); (a2, Some 1500000000); (a3, None)].
Proof.
  cbv zeta. split; [reflexivity|]. split; [|vm_compute; reflexivity].
  exists 429. split; auto. cbn. auto.
Qed.

(** The comment "rand[0, jitter)" is not quite right: rounding to nanoseconds can
    make the pause exactly the minimum plus the jitter. *)
Theorem C67_refuted_below_jitter :
  exists c es a d, accepted c = true /\ enabled c = true /\ (forall e, In e es -> rnd e < F) /\
    drive c 0 es = [(a, Some d)] /\ rate_limited (resp a) /\
    ~ d < (min_delay_ms c + jitter_ms c) * 1000000.
Proof.
  exists {| max_attempts := 3; enabled := true; min_delay_ms := 500; jitter_ms := 300 |}.
  set (a := {| resp := Status 500; builtin := None; rnd := F - 1; quota := true |}).
  exists [a], a, 800000000. split; [reflexivity|]. split; [reflexivity|].
  split; [intros e [<-|[]]; vm_compute; reflexivity|].
  split; [vm_compute; reflexivity|]. split; [exists 500; cbn; auto|]. vm_compute. congruence.
Qed.

Print Assumptions C67_pause.
Print Assumptions C67_retried.
Print Assumptions C67_attempts.
Print Assumptions C67_rest_unchanged.
Print Assumptions C67_refuted_below_jitter.
