(** Retries of S3 requests: src/utils/s3.rs [RateLimitedRetryClassifier],
    [build_s3_client]; the settings and their validation,
    src/config/v2/stripe_source.rs:195-241, 285-299, 344-351; how they reach the client,
    src/stripe_source/builder.rs:197-207. *)
From Coq Require Import List NArith Bool.
Import ListNotations.
Local Open Scope N_scope.

(** stripe_source.rs:197-219, the settings that matter here. *)
Record settings := {
  max_attempts : N;           (* u32 *)
  enabled : bool;
  min_delay_ms : N;           (* u64 *)
  jitter_ms : N               (* u64 *)
}.

(** stripe_source.rs:285-299 and 344-351. *)
Definition accepted (c : settings) : bool :=
  negb (max_attempts c =? 0) && negb (enabled c && (min_delay_ms c =? 0)).

(** Durations are in nanoseconds. *)
Definition from_millis (ms : N) : N := ms * 1000000.

(** s3.rs:28-31 [RateLimitedRetry]. *)
Record limited := { min_delay : N; jitter : N }.

(** builder.rs:201-206. *)
Definition limited_of (c : settings) : option limited :=
  if enabled c
  then Some {| min_delay := from_millis (min_delay_ms c); jitter := from_millis (jitter_ms c) |}
  else None.

(** What an attempt came back with. *)
Inductive response := NoResponse | Status (code : N).

(** s3.rs:56: the statuses the classifier takes over. *)
Definition limited_status (r : response) : bool :=
  match r with
  | NoResponse => false
  | Status n => (n =? 500) || (n =? 502) || (n =? 503) || (n =? 504) || (n =? 429)
  end.

(** fastrand::f64(): a multiple of 2^-52 below 1; the multiplier is [k / 2^52]. *)
Definition F : N := 2 ^ 52.

(** Duration::mul_f64: the product to the nearest nanosecond.  Simplification: the
    product is computed exactly, then rounded once (the code's f64 product is exact to
    53 bits, which is below a nanosecond for jitters under 100 days). *)
Definition mul_f64 (d k : N) : N := (d * k + F / 2) / F.

(** s3.rs:53-61 [classify_retry]: an explicit delay, or no opinion. *)
Definition classify (l : limited) (r : response) (k : N) : option N :=
  if limited_status r then Some (min_delay l + mul_f64 (jitter l) k) else None.

(** The default cap of the SDK (RetryConfig::standard().max_backoff()). *)
Definition SDK_MAX_BACKOFF : N := 20 * 1000000000.

(** s3.rs:117-130. *)
Definition max_backoff (l : option limited) : N :=
  match l with
  | None => SDK_MAX_BACKOFF
  | Some l => N.max (min_delay l + jitter l) SDK_MAX_BACKOFF
  end.

(** What the environment does at one attempt: the response, what the SDK's own
    classifiers make of it ([None]: not retryable; [Some d]: retry after the backoff
    [d], before the cap), the random number, and whether the SDK's token bucket allows
    a retry. *)
Record attempt := { resp : response; builtin : option N; rnd : N; quota : bool }.

(** The SDK's standard strategy, as documented and as the comments of s3.rs:64-75,
    118-125 rely on it: the classifier pushed by the application runs last and its
    explicit delay wins; every delay is capped; at most [max_attempts] attempts. *)
Definition decide (c : settings) (made : N) (a : attempt) : option N :=
  if max_attempts c <=? made then None
  else
    let l := limited_of c in
    let explicit := match l with Some l => classify l (resp a) (rnd a) | None => None end in
    match (match explicit with Some d => Some d | None => builtin a end) with
    | None => None
    | Some d => if quota a then Some (N.min d (max_backoff l)) else None
    end.

(** The attempts made for one request, each with the pause after it ([None]: the
    last one).  [made]: attempts already made. *)
Fixpoint drive (c : settings) (made : N) (es : list attempt) : list (attempt * option N) :=
  match es with
  | [] => []
  | a :: rest =>
      match decide c (made + 1) a with
      | None => [(a, None)]
      | Some d => (a, Some d) :: drive c (made + 1) rest
      end
  end.
