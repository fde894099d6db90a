(** C45: the control interface answers each request line exactly once. *)
From Coq Require Import List NArith ZArith Arith Bool Lia String ZifyBool ZifyNat ZifyN.
From Verif Require Import Base BaseFacts TrackerModel TrackerProps RpcModel RpcSpec RpcProofs.
Import ListNotations.
Local Open Scope N_scope.

(** For every input there is exactly one list of lines and of requests (the
    specification is a function of the input) ... *)
Theorem C45_requests : forall input, exists ls rs, lines input ls /\ requests ls rs /\
  forall ls' rs', lines input ls' -> requests ls' rs' -> ls' = ls /\ rs' = rs.
Proof.
  intros input. destruct (lines_exist input) as [ls Hls].
  destruct (client_requests (fun _ => inr []) (fun _ => seen {| si_reporter := None; si_queues := [] |}) (fun _ => None)
              input ls Hls (S (List.length input)) 0) as (rs & Hrs & _); [lia|].
  exists ls, rs. split; [exact Hls|]. split; [exact Hrs|].
  intros ls' rs' Hls' Hrs'. assert (E := lines_unique _ _ _ Hls' Hls). subst ls'.
  split; [reflexivity|]. now apply (requests_unique ls).
Qed.

(** ... and, if the answers can be sent, the client receives one line per
    request, in order; the [i]-th line decodes to a JSON object that answers the
    [i]-th request with what the queues and the status were then.  The server
    never panics. *)
Theorem C45_answers : forall parse si send_fails input ls rs,
  lines input ls -> requests ls rs ->
  (forall i, stripes_sane (si i)) -> (forall i, send_fails i = None) ->
  exists out, client parse (fun i => seen (si i)) send_fails input = Ok out /\
    List.length (cut [] out) = List.length rs /\
    forall i t, nth_error rs i = Some t ->
      exists line v, nth_error (cut [] out) i = Some line /\ decode line = Some v /\
        answer (si i) (parse t) v.
Proof.
  intros parse si send_fails input ls rs Hls Hrs Hsane Hsend.
  destruct (client_requests parse (fun i => seen (si i)) send_fails input ls Hls (S (List.length input)) 0)
    as (rs' & Hrs' & H); [lia|].
  assert (E := requests_unique _ _ _ Hrs' Hrs). subst rs'.
  destruct (H si) as (vs & Hl & Ha & Hall & _); auto.
  exists (flat_map payload vs). split; [apply Hall; auto|].
  rewrite cut_payloads. split; [now rewrite map_length|].
  intros i t Hi. destruct (nth_error vs i) as [v|] eqn:Ev.
  - exists (print v), v. split; [now rewrite nth_error_map, Ev|]. split; [apply decode_print|].
    exact (Ha i t v Hi Ev).
  - apply nth_error_None in Ev. assert (nth_error rs i <> None) by congruence.
    apply nth_error_Some in H0. lia.
Qed.

(** If sending the [k]-th answer fails, the earlier answers are complete and
    correct, at most a prefix of that one was sent, and nothing after it. *)
Theorem C45_send_failure : forall parse si send_fails input ls rs k n,
  lines input ls -> requests ls rs ->
  (forall i, stripes_sane (si i)) ->
  (k < List.length rs)%nat -> (forall i, (i < k)%nat -> send_fails i = None) -> send_fails k = Some n ->
  exists vs v, client parse (fun i => seen (si i)) send_fails input =
      Ok (flat_map payload vs ++ firstn n (payload v)) /\ List.length vs = k /\
    forall i t u, nth_error rs i = Some t -> nth_error (vs ++ [v]) i = Some u -> answer (si i) (parse t) u.
Proof.
  intros parse si send_fails input ls rs k n Hls Hrs Hsane Hk Hbefore Hfail.
  destruct (client_requests parse (fun i => seen (si i)) send_fails input ls Hls (S (List.length input)) 0)
    as (rs' & Hrs' & H); [lia|].
  assert (E := requests_unique _ _ _ Hrs' Hrs). subst rs'.
  destruct (H si) as (vs & Hl & Ha & _ & Hpart); auto.
  destruct (Hpart k n Hk) as (v & Hv & Hc); auto.
  { intros j Hj. apply Hbefore. lia. }
  exists (firstn k vs), v. split; [exact Hc|]. split; [rewrite firstn_length; lia|].
  intros i t u Ht Hu. apply (Ha i t u Ht).
  destruct (Nat.lt_ge_cases i k) as [Hik|Hik].
  - rewrite nth_error_app1 in Hu by (rewrite firstn_length; lia).
    rewrite <- Hu. rewrite <- (firstn_skipn k vs) at 1. rewrite nth_error_app1; [reflexivity|].
    rewrite firstn_length. lia.
  - rewrite nth_error_app2 in Hu by (rewrite firstn_length; lia).
    rewrite firstn_length in Hu. replace (Nat.min k (List.length vs)) with k in Hu by lia.
    destruct (i - k)%nat as [|d] eqn:Ed; [|destruct d; discriminate].
    injection Hu as <-. replace i with k by lia. exact Hv.
Qed.

(** The answer is determined by the request and what the interface stands for. *)
Theorem C45_answer_unique : forall si r v v', answer si r v -> answer si r v' -> v = v'.
Proof.
  intros si r v v' H H'.
  assert (J : forall t t' s n, just_covers t s n -> just_covers t' s n -> t = t').
  { intros t t' s n [A B] [A' B']. specialize (B t' A'). specialize (B' t A). lia. }
  assert (K : forall c, In c known -> ~ In c known -> False) by tauto.
  destruct H; inversion H'; subst; try reflexivity; try congruence;
    try (exfalso; eapply K; [|eassumption]; cbn; tauto).
  assert (r0 = r) by congruence. subst r0. now rewrite (J total total0 (sr_stripe_sectors r) (sr_target_sectors r)).
Qed.

(** Every answer is an object with one field: "error" exactly when the line was
    not a request or the command is unknown. *)
Theorem C45_errors : forall si r v, answer si r v ->
  exists k x, v = JObj [(k, x)] /\
    (k = text "error" <-> match r with inl c => ~ In c known | inr _ => True end).
Proof.
  assert (K : forall c, In c known -> forall k, k <> text "error" -> (k = text "error" <-> ~ In c known)) by tauto.
  intros si r v H; destruct H; eexists; eexists; (split; [reflexivity|]);
    first [apply K; [cbn; tauto|vm_compute; discriminate] | split; auto].
Qed.

(** ** A concrete session *)
Local Open Scope string_scope.

(** A parser good enough for the example: {"command":"..."} without escapes. *)
Definition ex_parse (l : list byte) : list byte + list byte :=
  match read_json (List.length l) l with
  | Some (JObj [(k, JStr c)], []) => if bytes_eqb k (text "command") then inl c else inr (text "missing field")
  | _ => inr (text "expected value")
  end.
Definition ex_situation (i : nat) : situation :=
  {| si_reporter := Some {| sr_stripe_sectors := 2048; sr_source := 7; sr_fetched := N.of_nat i; sr_target_sectors := 20481 |};
     si_queues := [{| q_size := 2; q_history := [TRead 0 5 1; TWrite 1 9 2; TClear 0] |}] |}.
(** The input, with ' for a double quote and | for a newline. *)
Definition line_bytes (s : string) : list byte :=
  map (fun b => if b =? 39 then 34 else if b =? 124 then 10 else b)%N (text s).
Definition ex_input : list byte :=
  (line_bytes " {'command':'status'} |||{'command':'queues'}|junk|{'command':'x'}|{'command':'stats'}")%list.

Example C45_nonvacuous :
  client ex_parse (fun i => seen (ex_situation i)) (fun _ => None) ex_input = Ok (line_bytes
    ("{'status':{'stripes':{'fetched':0,'source':7,'total':11}}}|" ++
     "{'queues':[[['write',9,2]]]}|" ++
     "{'error':'invalid request: expected value'}|" ++
     "{'error':'unknown command: x'}|" ++
     "{'stats':{'queues':[{'bytes_read':512,'bytes_written':1024,'flush_ops':0,'read_ops':1,'write_ops':1}]}}|")).
Proof. vm_compute. reflexivity. Qed.

Example C45_nonvacuous_hyp : forall i, stripes_sane (ex_situation i).
Proof. intros i r H. injection H as <-. discriminate. Qed.

(** Bytes that are not UTF-8 end the session without an answer. *)
Example C45_garbled :
  client ex_parse (fun i => seen (ex_situation i)) (fun _ => None)
    (line_bytes "{'command':'version'}|" ++ [255; 10]%N ++ line_bytes "{'command':'version'}|")%list =
  Ok (line_bytes "{'version':'0.5.1'}|").
Proof. vm_compute. reflexivity. Qed.

Print Assumptions C45_requests.
Print Assumptions C45_answers.
Print Assumptions C45_send_failure.
Print Assumptions C45_answer_unique.
Print Assumptions C45_errors.
