(** C49 and C51: the io_uring device. *)
From Coq Require Import List NArith ZArith Arith Bool Lia ZifyBool ZifyNat ZifyN Permutation.
From Verif Require Import Base BaseFacts ListFacts UringModel.
Import ListNotations.
Local Open Scope N_scope.
Ltac Zify.zify_post_hook ::= Z.div_mod_to_equations.

(** ** Specification *)

(** Identifiers handed to the channel by a list of events. *)
Definition handed (es : list uevent) : list nat :=
  flat_map (fun e => match e with
    | UAddRead _ _ id => [id] | UAddWrite _ _ id _ => [id] | UAddFlush id => [id] | _ => [] end) es.

(** Identifiers handed over and not reported yet. *)
Definition outstanding (s : ustate) : list nat :=
  map fst (u_sq s) ++ map fst (u_kern s) ++ map fst (u_cq s) ++ map fst (u_finished s).

(** ** Proofs *)
Lemma fst_poll : forall (cq : list (nat * Z)),
  map fst (map (fun '(id, r) => (id, negb (r <? 0)%Z)) cq) = map fst cq.
Proof. intros. rewrite map_map. apply map_ext. intros [? ?]. reflexivity. Qed.

Lemma push_outstanding : forall n id o s,
  Permutation (outstanding (push n id o s)) (id :: outstanding s).
Proof.
  intros. unfold push, outstanding. destruct (length (u_sq s) <? n)%nat; cbn [u_sq u_kern u_cq u_finished].
  - rewrite map_app. cbn [map fst]. rewrite <- app_assoc. cbn [app]. symmetry. apply Permutation_middle.
  - rewrite map_app. cbn [map fst]. rewrite !app_assoc. rewrite Permutation_app_comm. reflexivity.
Qed.

Lemma step_outstanding : forall n sy s e s' out, ustep n sy s e = (s', out) ->
  Permutation (outstanding s ++ handed [e]) (outstanding s' ++ map fst out).
Proof.
  intros * H. destruct e; cbn [ustep handed flat_map] in *; rewrite ?app_nil_r;
    try (injection H as <- <-; cbn [map]; rewrite app_nil_r).
  - unfold add_read. rewrite push_outstanding. apply Permutation_app_comm.
  - unfold add_write. rewrite push_outstanding. apply Permutation_app_comm.
  - unfold add_flush. destruct sy.
    + unfold outstanding. cbn [u_sq u_kern u_cq u_finished]. rewrite map_app. cbn [map fst].
      rewrite !app_assoc. reflexivity.
    + rewrite push_outstanding. apply Permutation_app_comm.
  - unfold submit. destruct (u_pending s =? 0)%nat; [reflexivity|]. unfold outstanding.
    cbn [u_sq u_kern u_cq u_finished]. rewrite map_app, !app_assoc.
    do 2 apply Permutation_app_tail.
    rewrite <- (firstn_skipn taken (u_sq s)) at 1. rewrite map_app.
    rewrite <- app_assoc. rewrite (Permutation_app_comm (map fst (firstn taken (u_sq s)))).
    rewrite <- app_assoc. reflexivity.
  - unfold kernel_complete. destruct (nth_error (u_kern s) i) as [[id o]|] eqn:E; [|reflexivity].
    destruct (perform o err (u_file s) (u_buf s id)) as [[f b] r].
    unfold outstanding. cbn [u_sq u_kern u_cq u_finished]. apply Permutation_app_head.
    rewrite !map_app. cbn [map fst]. rewrite !app_assoc. apply Permutation_app_tail.
    apply nth_error_split in E as (l1 & l2 & -> & <-).
    rewrite firstn_app, Nat.sub_diag, firstn_all. cbn [firstn]. rewrite app_nil_r.
    replace (skipn (S (length l1)) (l1 ++ (id, o) :: l2)) with l2.
    2:{ rewrite skipn_app. rewrite skipn_all2 by lia.
        replace (S (length l1) - length l1)%nat with 1%nat by lia. reflexivity. }
    rewrite map_app. cbn [map fst]. rewrite <- !app_assoc. apply Permutation_app_head.
    cbn [app]. rewrite app_assoc. apply Permutation_cons_append.
  - unfold poll in H. injection H as <- <-. unfold outstanding. cbn [u_sq u_kern u_cq u_finished map app].
    rewrite map_app, fst_poll, !app_nil_r. rewrite <- !app_assoc. do 2 apply Permutation_app_head.
    apply Permutation_app_comm.
Qed.

(** ** C51 *)

(** Every identifier handed to the channel is, exactly once, reported or still
    outstanding, whatever the kernel does. *)
Theorem C51_exactly_once : forall n sy f es s out,
  urun n sy (uinit f) es = (s, out) ->
  Permutation (handed es) (map fst out ++ outstanding s).
Proof.
  intros n sy f es.
  assert (G : forall s0 s out, urun n sy s0 es = (s, out) ->
            Permutation (outstanding s0 ++ handed es) (map fst out ++ outstanding s)).
  { induction es as [|e es IH]; intros s0 s out H; cbn [urun] in H.
    - injection H as <- <-. cbn. rewrite app_nil_r. reflexivity.
    - destruct (ustep n sy s0 e) as [s1 o1] eqn:E1. destruct (urun n sy s1 es) as [s2 o2] eqn:E2.
      injection H as <- <-. apply step_outstanding in E1. specialize (IH _ _ _ E2).
      replace (handed (e :: es)) with (handed [e] ++ handed es)
        by (unfold handed; cbn [flat_map]; rewrite app_nil_r; reflexivity).
      rewrite app_assoc, E1, map_app. rewrite (Permutation_app_comm (outstanding s1)).
      rewrite <- !app_assoc. apply Permutation_app_head. exact IH. }
  intros s out H. specialize (G _ _ _ H). exact G.
Qed.

(** The channel reports being busy exactly while something is outstanding. *)
Theorem C51_busy_exact : forall n sy f es s out,
  urun n sy (uinit f) es = (s, out) -> (busy s = true <-> outstanding s <> []).
Proof.
  intros n sy f es.
  assert (G : forall s0 s out, urun n sy s0 es = (s, out) ->
     (u_submissions s0 + u_pending s0 = u_completions s0 + length (u_sq s0) + length (u_kern s0) + length (u_cq s0))%nat /\ (u_pending s0 <= length (u_sq s0))%nat ->
     (u_submissions s + u_pending s = u_completions s + length (u_sq s) + length (u_kern s) + length (u_cq s))%nat /\ (u_pending s <= length (u_sq s))%nat).
  { induction es as [|e es IH]; intros s0 s out H I; cbn [urun] in H; [injection H as <- <-; exact I|].
    destruct (ustep n sy s0 e) as [s1 o1] eqn:E1. destruct (urun n sy s1 es) as [s2 o2] eqn:E2.
    injection H as <- <-. apply (IH _ _ _ E2). clear IH E2.
    assert (P : forall id o, (u_submissions (push n id o s0) + u_pending (push n id o s0) =
        u_completions (push n id o s0) + length (u_sq (push n id o s0)) +
        length (u_kern (push n id o s0)) + length (u_cq (push n id o s0)))%nat /\ (u_pending (push n id o s0) <= length (u_sq (push n id o s0)))%nat).
    { intros. unfold push. destruct (length (u_sq s0) <? n)%nat;
        cbn [u_submissions u_pending u_completions u_sq u_kern u_cq]; rewrite ?app_length; cbn [length]; lia. }
    destruct e; cbn [ustep] in E1; try (injection E1 as <- <-); try apply P.
    - unfold add_flush. destruct sy; [exact I|apply P].
    - unfold submit. destruct (Nat.eqb_spec (u_pending s0) 0); [exact I|].
      cbn [u_submissions u_pending u_completions u_sq u_kern u_cq].
      rewrite app_length, firstn_length, skipn_length. lia.
    - unfold kernel_complete. destruct (nth_error (u_kern s0) i) as [[id o]|] eqn:E; [|exact I].
      destruct (perform o err (u_file s0) (u_buf s0 id)) as [[f' b] r].
      cbn [u_submissions u_pending u_completions u_sq u_kern u_cq].
      assert (i < length (u_kern s0))%nat by (apply nth_error_Some; congruence).
      rewrite !app_length, firstn_length, skipn_length. cbn [length]. lia.
    -
      cbn [u_submissions u_pending u_completions u_sq u_kern u_cq length]. lia. }
  intros s out H. specialize (G _ _ _ H). cbn in G. specialize (G (conj eq_refl (le_n 0))). unfold busy, outstanding.
  destruct (u_finished s) as [|x l]; cbn [negb map].
  - rewrite orb_false_r, app_nil_r. 
    destruct (u_sq s) as [|a1 q1]; [destruct (u_kern s) as [|a2 q2]; [destruct (u_cq s) as [|a3 q3]|]|];
      cbn [map app length] in *; split; intros; try congruence; try lia; exfalso; lia.
  - rewrite orb_true_r. cbn [orb]. split; [|reflexivity]. intros _ F.
    apply (f_equal (@length _)) in F. rewrite !app_length in F. cbn [length] in F. lia.
Qed.

(** If the kernel takes everything it is offered, then after a submit, once the
    kernel has finished its work, one poll reports everything. *)
Theorem C51_drains : forall n sy f es s out s1 es2 s2 out2,
  (forall pre k post, es = pre ++ USubmit k :: post ->
     (length (u_sq (fst (urun n sy (uinit f) pre))) <= k)%nat) ->
  urun n sy (uinit f) es = (s, out) ->
  s1 = submit (length (u_sq s)) s ->
  Forall (fun e => match e with UKernel _ _ => True | _ => False end) es2 ->
  urun n sy s1 es2 = (s2, out2) -> u_kern s2 = [] ->
  outstanding (fst (poll s2)) = [].
Proof.
  intros * Hfull Hrun -> Hk Hrun2 Hkern.
  assert (I : u_pending s = length (u_sq s)).
  { clear Hk Hrun2 Hkern.
    assert (G : forall pre es s0 s out, es = es -> s0 = fst (urun n sy (uinit f) pre) ->
              (forall mid k post, es = mid ++ USubmit k :: post ->
                 (length (u_sq (fst (urun n sy (uinit f) (pre ++ mid)))) <= k)%nat) ->
              u_pending s0 = length (u_sq s0) -> urun n sy s0 es = (s, out) ->
              u_pending s = length (u_sq s)).
    { clear. intros pre es. revert pre. induction es as [|e es IH]; intros pre s0 s out _ Hs0 Hf I H; cbn [urun] in H.
      - injection H as <- <-. exact I.
      - destruct (ustep n sy s0 e) as [s1 o1] eqn:E1. destruct (urun n sy s1 es) as [s2 o2] eqn:E2.
        injection H as <- <-.
        assert (Epre : forall e1, fst (urun n sy (uinit f) (pre ++ [e1])) = fst (ustep n sy (fst (urun n sy (uinit f) pre)) e1)).
        { clear. intros e1. generalize (uinit f). induction pre; intros u; cbn [app urun fst].
          - destruct (ustep n sy u e1). reflexivity.
          - destruct (ustep n sy u a) as [u1 x1]. specialize (IHpre u1).
            destruct (urun n sy u1 (pre ++ [e1])). destruct (urun n sy u1 pre). exact IHpre. }
        apply (IH (pre ++ [e]) s1 s2 o2); auto.
        + rewrite Epre, <- Hs0, E1. reflexivity.
        + intros mid k post Ees. rewrite <- app_assoc. cbn [app]. apply (Hf (e :: mid) k post). rewrite Ees. reflexivity.
        + assert (P : forall id o, u_pending (push n id o s0) = length (u_sq (push n id o s0))).
          { intros. unfold push. destruct (length (u_sq s0) <? n)%nat; cbn [u_pending u_sq]; rewrite ?app_length; cbn [length]; lia. }
          destruct e; cbn [ustep] in E1; try (injection E1 as <- <-); try apply P.
          * unfold add_flush. destruct sy; [exact I|apply P].
          * pose proof (Hf [] taken es eq_refl) as L. rewrite app_nil_r, <- Hs0 in L.
            unfold submit. destruct (Nat.eqb_spec (u_pending s0) 0); [exact I|].
            cbn [u_pending u_sq]. rewrite skipn_length. lia.
          * unfold kernel_complete. destruct (nth_error (u_kern s0) i) as [[id o]|]; [|exact I].
            destruct (perform o err (u_file s0) (u_buf s0 id)) as [[f' b] r]. exact I.
          * exact I. }
    apply (G [] es (uinit f) s out); auto. }
  assert (S1 : u_sq (submit (length (u_sq s)) s) = []).
  { unfold submit. destruct (Nat.eqb_spec (u_pending s) 0).
    - destruct (u_sq s); [reflexivity|]. cbn [length] in I. lia.
    - cbn [u_sq]. apply skipn_all. }
  assert (S2 : u_sq s2 = []).
  { revert Hrun2 S1. generalize (submit (length (u_sq s)) s). clear - Hk. revert s2 out2.
    induction Hk as [|e es2 He Hk IH]; intros s2 out2 s1 H S1; cbn [urun] in H; [injection H as <- <-; exact S1|].
    destruct e; try contradiction. cbn [ustep] in H.
    destruct (urun n sy (kernel_complete i err s1) es2) as [s3 o3] eqn:E. injection H as <- <-.
    apply (IH _ _ _ E). unfold kernel_complete. destruct (nth_error (u_kern s1) i) as [[id o]|]; [|exact S1].
    destruct (perform o err (u_file s1) (u_buf s1 id)) as [[f' b] r]. exact S1. }
  unfold poll. cbn [fst]. unfold outstanding. cbn [u_sq u_kern u_cq u_finished]. rewrite S2, Hkern. reflexivity.
Qed.

(** The hypotheses are met: a run with two submits, two orders of completion and a
    request refused because the queue is full. *)
Example C51_nonvacuous : exists es s out, urun 2 false (uinit (repeat 5 1024)) es = (s, out) /\
  (forall pre k post, es = pre ++ USubmit k :: post ->
     (length (u_sq (fst (urun 2 false (uinit (repeat 5%N 1024)) pre))) <= k)%nat) /\
  handed es = [1; 2; 3; 4]%nat /\ out = [(3, false); (2, true)]%nat /\ outstanding s = [4; 1]%nat.
Proof.
  exists [UAddRead 0 1 1; UAddFlush 2; UAddFlush 3; USubmit 2; UKernel 1 None; UPoll; UAddRead 1 1 4].
  eexists. eexists. split; [vm_compute; reflexivity|]. split; [|split; [reflexivity|split; reflexivity]].
  intros pre k post E.
  do 4 (destruct pre as [|? pre]; [cbn [app] in E; try discriminate E|injection E as <- E]).
  - injection E as <- <-. vm_compute. lia.
  - do 3 (destruct pre as [|? pre]; [cbn [app] in E; discriminate E|injection E as <- E]).
    destruct pre; discriminate E.
Qed.

(** If the kernel does not take an entry at submit time, the entry is only offered
    again when another request arrives: submitting and polling for ever does
    not help, although the channel says it is busy. *)
Theorem C51_refuted_submit_error : exists es s out, urun 4 false (uinit (repeat 0 512)) es = (s, out) /\
  handed es = [7%nat] /\ busy s = true /\
  forall es2 s2 out2, Forall (fun e => match e with USubmit _ | UKernel _ _ | UPoll => True | _ => False end) es2 ->
    urun 4 false s es2 = (s2, out2) -> out2 = [] /\ busy s2 = true.
Proof.
  exists [UAddRead 0 1 7; USubmit 0]. eexists. eexists. split; [reflexivity|].
  split; [reflexivity|]. split; [reflexivity|].
  match goal with |- forall _ _ _, _ -> urun _ _ ?s _ = _ -> _ => set (st := s) end.
  assert (K : forall es2 s2 out2, Forall (fun e => match e with USubmit _ | UKernel _ _ | UPoll => True | _ => False end) es2 ->
     urun 4 false st es2 = (s2, out2) -> s2 = st /\ out2 = []).
  { induction es2 as [|e es2 IH]; intros s2 out2 F H; cbn [urun] in H; [injection H as <- <-; auto|].
    inversion F; subst.
    assert (E : ustep 4 false st e = (st, [])).
    { destruct e; try contradiction; [reflexivity| |reflexivity].
      cbn [ustep]. f_equal. unfold kernel_complete. destruct i; reflexivity. }
    rewrite E in H. destruct (urun 4 false st es2) as [s3 o3] eqn:E2. injection H as <- <-.
    destruct (IH _ _ H3 eq_refl) as [-> ->]. auto. }
  intros es2 s2 out2 F H. destruct (K _ _ _ F H) as [-> ->]. split; [reflexivity|]. reflexivity.
Qed.

(** ** C49 *)

Lemma pwrite_inside : forall f off d, (off + length d <= length f)%nat ->
  pwrite f off d = firstn off f ++ d ++ skipn (off + length d) f.
Proof.
  intros. unfold pwrite. replace (off - length f)%nat with 0%nat by lia. cbn [repeat]. rewrite app_nil_r. reflexivity.
Qed.

(** A request inside the device touches exactly its sectors, does not change the
    size of the file and transfers all its bytes. *)
Theorem C49_inside_partial : forall f cap q sector count id data s n,
  uring_open q f = Ok cap -> sector + count <= cap -> count < 2 ^ 23 -> cap < 2 ^ 54 ->
  u_file s = f -> length data = (512 * N.to_nat count)%nat ->
  let off := (512 * N.to_nat sector)%nat in
  let len := (512 * N.to_nat count)%nat in
  (u_sq (add_read n sector count id s) = u_sq s ++ [(id, URead (512 * sector) (512 * count))] \/
   u_finished (add_read n sector count id s) = u_finished s ++ [(id, false)]) /\
  (u_sq (add_write n sector count id data s) = u_sq s ++ [(id, UWrite (512 * sector) (512 * count) data)] \/
   u_finished (add_write n sector count id data s) = u_finished s ++ [(id, false)]) /\
  perform (URead (512 * sector) (512 * count)) None f (u_buf s id) =
    (f, firstn len (skipn off f), Z.of_nat len) /\
  (0 < count -> exists f', perform (UWrite (512 * sector) (512 * count) data) None f (u_buf s id) =
      (f', u_buf s id, Z.of_nat len) /\
    length f' = length f /\ firstn len (skipn off f') = data /\
    firstn off f' = firstn off f /\ skipn (off + len) f' = skipn (off + len) f).
Proof.
  intros f cap q sector count id data s n Ho Hin Hc Hcap Hf Hd off len.
  assert (HF : (512 * N.to_nat cap = length f)%nat).
  { unfold uring_open in Ho. destruct (negb _); [discriminate|].
    destruct (N.eqb_spec (N.of_nat (length f) mod 512) 0); cbn [negb] in Ho; [|discriminate].
    injection Ho as <-. lia. }
  assert (E1 : (sector * 512) mod 2 ^ 64 = 512 * sector) by (rewrite N.mod_small; change (2 ^ 64) with 18446744073709551616 in *; change (2 ^ 54) with 18014398509481984 in *; lia).
  assert (E2 : (count * 512) mod 2 ^ 32 = 512 * count) by (rewrite N.mod_small; change (2 ^ 32) with 4294967296 in *; change (2 ^ 23) with 8388608 in *; lia).
  assert (E3 : 2 ^ 63 <=? 512 * sector = false).
  { apply N.leb_gt. change (2 ^ 63) with 9223372036854775808. change (2 ^ 54) with 18014398509481984 in *. lia. }
  assert (O : N.to_nat (512 * sector) = off) by lia.
  assert (L : N.to_nat (512 * count) = len) by lia.
  assert (B : (off + len <= length f)%nat) by lia.
  clearbody off len.
  unfold add_read, add_write. rewrite E1, E2. split; [|split; [|split]].
  - unfold push. destruct (length (u_sq s) <? n)%nat; cbn [u_sq u_finished]; auto.
  - unfold push. destruct (length (u_sq s) <? n)%nat; cbn [u_sq u_finished]; auto.
  - unfold perform. rewrite E3, O, L. unfold pread. f_equal.
    rewrite firstn_length, skipn_length. lia.
  - intros Hpos. unfold perform. rewrite E3, O, L.
    rewrite firstn_all2 by lia.
    destruct data as [|x data]; [cbn [length] in Hd; lia|].
    set (dd := x :: data) in *. assert (Ld : length dd = len) by lia. clearbody dd.
    rewrite pwrite_inside by lia. eexists. split; [rewrite Ld; reflexivity|].
    assert (Lf : length (firstn off f) = off) by (rewrite firstn_length; lia).
    split; [|split; [|split]].
    + rewrite !app_length, Lf, skipn_length. lia.
    + rewrite skipn_app_exact by exact Lf. rewrite firstn_app_exact by exact Ld. reflexivity.
    + rewrite firstn_app_exact by exact Lf. reflexivity.
    + rewrite app_assoc. rewrite skipn_app_exact by (rewrite app_length; lia). reflexivity.
Qed.

Example C49_nonvacuous : exists f cap, uring_open 4 f = Ok cap /\ 1 + 1 <= cap /\
  snd (urun 4 false (uinit f) [UAddWrite 1 1 3 (repeat 9 512); USubmit 1; UKernel 0 None; UPoll]) = [(3%nat, true)].
Proof. exists (repeat 5 1024), 2. vm_compute. repeat split; discriminate. Qed.

(** Requests outside the device are not refused.  A write behind its end succeeds
    and makes the backing file larger ... *)
Theorem C49_refuted_write_past_end : exists f cap s out, uring_open 4 f = Ok cap /\ cap = 1 /\
  urun 4 false (uinit f) [UAddWrite 3 1 0 (repeat 9 512); USubmit 1; UKernel 0 None; UPoll] = (s, out) /\
  out = [(0%nat, true)] /\ length f = 512%nat /\ length (u_file s) = 2048%nat.
Proof.
  exists (repeat 5 512), 1. eexists. eexists. split; [vm_compute; reflexivity|]. split; [reflexivity|].
  split; [vm_compute; reflexivity|]. vm_compute. auto.
Qed.

(** ... a read behind its end is reported as successful although nothing was read
    (the guest gets whatever the buffer held) ... *)
Theorem C49_refuted_read_past_end : exists f cap s out, uring_open 4 f = Ok cap /\ cap = 1 /\
  urun 4 false (uinit f) [UAddRead 3 1 0; USubmit 1; UKernel 0 None; UPoll] = (s, out) /\
  out = [(0%nat, true)] /\ u_buf s 0 = [].
Proof.
  exists (repeat 5 512), 1. eexists. eexists. split; [vm_compute; reflexivity|]. split; [reflexivity|].
  split; [vm_compute; reflexivity|]. vm_compute. auto.
Qed.

(** ... and an offset of 2^55 sectors wraps around to the first sector. *)
Theorem C49_refuted_wrap : exists f s out,
  urun 4 false (uinit f) [UAddWrite (2 ^ 55) 1 0 (repeat 9 512); USubmit 1; UKernel 0 None; UPoll] = (s, out) /\
  out = [(0%nat, true)] /\ f = repeat 5 512 /\ u_file s = repeat 9 512.
Proof.
  exists (repeat 5 512). eexists. eexists. split; [vm_compute; reflexivity|]. vm_compute. auto.
Qed.

Print Assumptions C51_exactly_once.
Print Assumptions C51_busy_exact.
Print Assumptions C51_drains.
Print Assumptions C51_refuted_submit_error.
Print Assumptions C49_inside_partial.
Print Assumptions C49_refuted_write_past_end.
Print Assumptions C49_refuted_read_past_end.
Print Assumptions C49_refuted_wrap.
