(** C44: accepted tuning values are safe to use. *)
From Coq Require Import List NArith ZArith Bool Lia ZifyBool ZifyNat ZifyN.
From Verif Require Import Base BaseFacts ConfigModel.
Import ListNotations.
Local Open Scope N_scope.

(** What an operator may configure. *)
Record tuning_ok (t : tuning) : Prop := {
  ok_queues : 1 <= t_num_queues t <= 63;
  ok_size : exists k, k <= 16 /\ t_queue_size t = 2 ^ k;
  ok_seg_size : 1 <= t_seg_size_max t <= 1048576;
  ok_seg_count : 1 <= t_seg_count_max t <= 256;
  ok_cpus : forall cpus, t_cpus t = Some cpus -> N.of_nat (length cpus) = t_num_queues t;
  ok_poll : t_poll_timeout_us t <= 10000000
}.

Lemma ones_pos : forall p, 1 <= ones p.
Proof. induction p; cbn [ones]; lia. Qed.

Lemma ones_pow : forall p, ones p = 1 <-> exists k, Npos p = 2 ^ k.
Proof.
  induction p as [p IH|p IH|].
  - cbn [ones]. pose proof (ones_pos p). split; [lia|]. intros [k Hk].
    destruct (N.eq_dec k 0) as [->|]; [cbn in Hk; lia|].
    replace k with (N.succ (k - 1)) in Hk by lia. rewrite N.pow_succ_r' in Hk. lia.
  - cbn [ones]. rewrite IH. split; intros [k Hk].
    + exists (N.succ k). rewrite N.pow_succ_r'. lia.
    + destruct (N.eq_dec k 0) as [->|]; [cbn in Hk; lia|].
      exists (k - 1). replace k with (N.succ (k - 1)) in Hk by lia. rewrite N.pow_succ_r' in Hk. lia.
  - split; [intros _; now exists 0|reflexivity].
Qed.

Lemma pow2_spec : forall x, is_power_of_two x = true <-> exists k, x = 2 ^ k.
Proof.
  intros [|p]; cbn [is_power_of_two].
  - split; [discriminate|]. intros [k Hk]. pose proof (N.pow_nonzero 2 k ltac:(lia)). lia.
  - rewrite N.eqb_eq. apply ones_pow.
Qed.

(** A tuning section is accepted exactly when it is in range. *)
Theorem C44_accepted : forall t, is_ok (validate_tuning t) = true <-> tuning_ok t.
Proof.
  intros t. unfold validate_tuning, MAX_NUM_QUEUES. split.
  - destruct ((t_num_queues t =? 0) || (63 <? t_num_queues t)) eqn:E1; [discriminate|].
    destruct ((t_queue_size t =? 0) || (65536 <? t_queue_size t) || negb (is_power_of_two (t_queue_size t))) eqn:E2; [discriminate|].
    destruct ((t_seg_size_max t =? 0) || (1048576 <? t_seg_size_max t)) eqn:E3; [discriminate|].
    destruct ((t_seg_count_max t =? 0) || (256 <? t_seg_count_max t)) eqn:E4; [discriminate|].
    destruct (match t_cpus t with Some cpus => negb (N.of_nat (length cpus) =? t_num_queues t) | None => false end) eqn:E5; [discriminate|].
    destruct (10000000 <? t_poll_timeout_us t) eqn:E6; [discriminate|].
    intros _. constructor; try lia.
    + assert (Hp : is_power_of_two (t_queue_size t) = true) by (destruct (is_power_of_two (t_queue_size t)); lia).
      apply pow2_spec in Hp. destruct Hp as [k Hk]. exists k. split; [|exact Hk].
      destruct (N.le_gt_cases k 16) as [|Hgt]; [assumption|].
      assert (2 ^ 17 <= 2 ^ k) by (apply N.pow_le_mono_r; lia).
      change (2 ^ 17) with 131072 in *. lia.
    + intros cpus Hc. rewrite Hc in E5. lia.
  - intros [H1 (k & Hk & H2) H3 H4 H5 H6].
    assert (Hp : is_power_of_two (t_queue_size t) = true) by (apply pow2_spec; eauto).
    assert (2 ^ k <= 65536).
    { change 65536 with (2 ^ 16). apply N.pow_le_mono_r; lia. }
    pose proof (N.pow_nonzero 2 k ltac:(lia)).
    destruct ((t_num_queues t =? 0) || (63 <? t_num_queues t)) eqn:E1; [lia|].
    destruct ((t_queue_size t =? 0) || (65536 <? t_queue_size t) || negb (is_power_of_two (t_queue_size t))) eqn:E2;
      [rewrite Hp in E2; lia|].
    destruct ((t_seg_size_max t =? 0) || (1048576 <? t_seg_size_max t)) eqn:E3; [lia|].
    destruct ((t_seg_count_max t =? 0) || (256 <? t_seg_count_max t)) eqn:E4; [lia|].
    destruct (t_cpus t) as [cpus|].
    + specialize (H5 cpus eq_refl). destruct (negb (N.of_nat (length cpus) =? t_num_queues t)) eqn:E5; [lia|].
      destruct (10000000 <? t_poll_timeout_us t) eqn:E6; [lia|reflexivity].
    + destruct (10000000 <? t_poll_timeout_us t) eqn:E6; [lia|reflexivity].
Qed.

(** With an accepted tuning the vhost backend computes its sizes exactly: the
    buffer of a request slot holds the advertised maximum and the product does
    not overflow, the total over all slots and queues fits the address space,
    each queue gets a bit of its own in a 64-bit mask, the advertised number of
    queues is the configured one, every thread finds its CPU, and the io_uring
    device accepts the queue size. *)
Theorem C44_vhost_safe : forall t, validate_tuning t = Ok tt ->
  (exists b, vhost_buf_size t = Ok b /\ b = t_seg_count_max t * t_seg_size_max t /\
     t_num_queues t * (t_queue_size t * b) < 2 ^ 63) /\
  (forall i, i < t_num_queues t -> queue_mask i = Ok (2 ^ i) /\ 2 ^ i < 2 ^ 64) /\
  virtio_num_queues t = t_num_queues t /\
  (forall i, (N.of_nat i < t_num_queues t) ->
     exists c, pin_cpu t i = Ok c /\ (c = None <-> t_cpus t = None)) /\
  uring_entries t = Ok (t_queue_size t).
Proof.
  intros t H. assert (Hok : is_ok (validate_tuning t) = true) by now rewrite H.
  apply C44_accepted in Hok. destruct Hok as [H1 (k & Hk & H2) H3 H4 H5 H6].
  assert (Hq : t_queue_size t <= 65536).
  { rewrite H2. change 65536 with (2 ^ 16). apply N.pow_le_mono_r; lia. }
  assert (Hprod : t_seg_count_max t * t_seg_size_max t <= 256 * 1048576)
    by (apply N.mul_le_mono; lia).
  split; [|split; [|split; [|split]]].
  - unfold vhost_buf_size. cbv zeta. change (2 ^ 32) with 4294967296.
    destruct (N.ltb_spec (t_seg_count_max t * t_seg_size_max t) 4294967296); [|lia].
    eexists. split; [reflexivity|]. split; [reflexivity|].
    assert (t_queue_size t * (t_seg_count_max t * t_seg_size_max t) <= 65536 * (256 * 1048576))
      by (apply N.mul_le_mono; lia).
    assert (t_num_queues t * (t_queue_size t * (t_seg_count_max t * t_seg_size_max t)) <=
            63 * (65536 * (256 * 1048576))) by (apply N.mul_le_mono; lia).
    change (2 ^ 63) with 9223372036854775808. lia.
  - intros i Hi. unfold queue_mask. destruct (N.ltb_spec i 64); [|lia].
    split; [reflexivity|]. apply N.pow_lt_mono_r; lia.
  - unfold virtio_num_queues, as_u16. apply N.mod_small. lia.
  - intros i Hi. unfold pin_cpu. destruct (t_cpus t) as [cpus|] eqn:Ec.
    + specialize (H5 cpus eq_refl). unfold index.
      destruct (nth_error cpus i) as [c|] eqn:En.
      * exists (Some c). cbn. split; [reflexivity|]. split; discriminate.
      * apply nth_error_None in En. lia.
    + exists None. split; [reflexivity|]. tauto.
  - unfold uring_entries.
    assert (Hp : is_power_of_two (t_queue_size t) = true) by (apply pow2_spec; eauto).
    rewrite Hp. cbn [negb]. change (2 ^ 32) with 4294967296.
    destruct (N.ltb_spec (t_queue_size t) 4294967296); [reflexivity|lia].
Qed.

(** Different queues get different bits. *)
Theorem C44_masks_distinct : forall i j, queue_mask i = queue_mask j ->
  i < 64 -> j < 64 -> i = j.
Proof.
  intros i j H Hi Hj. unfold queue_mask in H.
  destruct (N.ltb_spec i 64); [|lia]. destruct (N.ltb_spec j 64); [|lia].
  apply Ok_inj in H. now apply (N.pow_inj_r 2).
Qed.

(** The ublk backend passes the queue size to the kernel as a 16-bit number:
    right up to 32768 ... *)
Theorem C44_ublk_depth_partial : forall t, validate_tuning t = Ok tt -> t_queue_size t <> 65536 ->
  ublk_depth t = t_queue_size t /\ ublk_num_queues t = t_num_queues t.
Proof.
  intros t H Hne. assert (Hok : is_ok (validate_tuning t) = true) by now rewrite H.
  apply C44_accepted in Hok. destruct Hok as [H1 (k & Hk & H2) H3 H4 H5 H6].
  assert (Hq : t_queue_size t <= 65536).
  { rewrite H2. change 65536 with (2 ^ 16). apply N.pow_le_mono_r; lia. }
  unfold ublk_depth, ublk_num_queues, as_u16. split; apply N.mod_small; lia.
Qed.

(** ... but the accepted maximum, 65536, becomes a queue depth of 0. *)
Theorem C44_refuted_ublk_depth : exists t,
  validate_tuning t = Ok tt /\ t_queue_size t = 65536 /\ ublk_depth t = 0.
Proof.
  exists {| t_num_queues := 1; t_queue_size := 65536; t_seg_size_max := 65536; t_seg_count_max := 4;
            t_poll_timeout_us := 1000; t_cpus := None |}.
  repeat split.
Qed.

Example C44_nonvacuous : validate_tuning default_tuning = Ok tt /\
  validate_tuning {| t_num_queues := 63; t_queue_size := 32768; t_seg_size_max := 1048576;
    t_seg_count_max := 256; t_poll_timeout_us := 0; t_cpus := Some (repeat 0 63) |} = Ok tt /\
  is_ok (validate_tuning {| t_num_queues := 2; t_queue_size := 96; t_seg_size_max := 4096;
    t_seg_count_max := 4; t_poll_timeout_us := 0; t_cpus := None |}) = false.
Proof. repeat split. Qed.

Print Assumptions C44_accepted.
Print Assumptions C44_vhost_safe.
Print Assumptions C44_masks_distinct.
Print Assumptions C44_ublk_depth_partial.
Print Assumptions C44_refuted_ublk_depth.
