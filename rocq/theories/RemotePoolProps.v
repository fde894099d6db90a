(** Property C33: the remote stripe source. *)
From Coq Require Import List Arith NArith ZArith Bool Lia Permutation ZifyBool ZifyNat ZifyN.
Import ListNotations.
From Verif Require Import Base BaseFacts MetadataModel MetadataSpec RemoteModel RemotePoolModel RemotePoolProofs.
Local Open Scope nat_scope.

(** A connection whose server reports the geometry [g] (sectors per stripe, number
    of stripes). *)
Definition same_geometry (w : world) (g : geometry) (c : nat) : Prop :=
  exists m, w_meta w c = Some m /\ (2 ^ md_shift m)%N = fst g /\ length (md_headers m) = snd g.

Lemma accepts_iff : forall w g c, accepts w g c = true <-> same_geometry w g c.
Proof.
  intros w g c. unfold accepts, same_geometry. destruct (w_meta w c) as [m|].
  - unfold geometry_eqb, geometry_of. cbn [fst snd]. rewrite andb_true_iff, N.eqb_eq, Nat.eqb_eq.
    unfold stripe_sector_count. rewrite N.shiftl_1_l. split.
    + intros [A B]. exists m. auto.
    + intros (m' & E & A & B). injection E as <-. auto.
  - split; [discriminate|]. intros (m & E & _). discriminate.
Qed.

(** Each stripe request makes at most ten connection attempts and eleven fetches
    and waits at most 121.5 seconds in total. *)
Theorem C33_retries_bounded : forall w g stripe client t log r c' t',
  fetch_with_reconnect w g stripe client t = (log, r, c', t') ->
  dials log <= 10 /\ fetches log <= 11 /\ (slept log <= 121500)%N.
Proof.
  intros w g stripe client t log r c' t' H. apply attempts_ok in H; [|lia].
  destruct H as [A B C _ _ _ _ _]. split; [exact A|]. split; [exact B|]. exact C.
Qed.

(** The outcome.  The first action that settles the matter - data, an error that is
    not a transport error, a panic, or a server with another geometry - is the last
    one and determines the result; otherwise the request fails after exactly ten
    reconnections. *)
Inductive settles (w : world) (g : geometry) : act -> fres -> Prop :=
| settles_data c d : settles w g (AFetch c (FData d)) (ROk d)
| settles_other c : settles w g (AFetch c FOther) (RErr ErrOther)
| settles_panic c : settles w g (AFetch c FPanic) (RErr ErrPanic)
| settles_geometry c : ~ same_geometry w g c -> settles w g (ADial (Some c)) (RErr ErrGeometry).

Lemma decides_iff w g a r : decides w g a = Some r <-> settles w g a r.
Proof.
  split.
  - destruct a as [ms|[c|]|c [d| | |]]; cbn; intros H; try discriminate; try (injection H as <-; constructor).
    destruct (accepts w g c) eqn:E; [discriminate|]. injection H as <-. constructor.
    intros G. apply accepts_iff in G. congruence.
  - intros [| | |c N]; cbn; auto. destruct (accepts w g c) eqn:E; auto. apply accepts_iff in E. contradiction.
Qed.
Lemma undecided_iff w g log : undecided w g log <-> forall a r, In a log -> ~ settles w g a r.
Proof.
  unfold undecided. rewrite Forall_forall. split.
  - intros H a r Hin S. apply decides_iff in S. rewrite (H a Hin) in S. discriminate.
  - intros H a Hin. destruct (decides w g a) eqn:E; auto. apply decides_iff in E. exfalso. eapply H; eauto.
Qed.

Theorem C33_outcome : forall w g stripe client t log r c' t',
  fetch_with_reconnect w g stripe client t = (log, r, c', t') ->
  (exists pre a, log = pre ++ [a] /\ settles w g a r /\ forall b q, In b pre -> ~ settles w g b q) \/
  (r = RErr ErrTransport /\ dials log = 10 /\ forall b q, In b log -> ~ settles w g b q).
Proof.
  intros w g stripe client t log r c' t' H. apply attempts_ok in H; [|lia].
  destruct H as [_ _ _ _ _ _ _ [(pre & a & -> & U & D)|(U & -> & D)]].
  - left. exists pre, a. split; auto. split; [now apply decides_iff|now apply undecided_iff].
  - right. split; auto. split; [exact D|now apply undecided_iff].
Qed.

(** Stripes are only ever fetched over the worker's connection or over a new one
    with the expected geometry; after a reconnect to another geometry the request
    fails and nothing was fetched from that server. *)
Theorem C33_no_mixing : forall w g stripe client t log r c' t',
  fetch_with_reconnect w g stripe client t = (log, r, c', t') ->
  (forall c o, In (AFetch c o) log -> c = client \/ same_geometry w g c) /\
  (c' = client \/ same_geometry w g c') /\
  (forall c, In (ADial (Some c)) log -> ~ same_geometry w g c ->
     r = RErr ErrGeometry /\ exists pre, log = pre ++ [ADial (Some c)]) /\
  (forall d, r = ROk d -> exists t0, w_fetch w t0 c' stripe = FData d).
Proof.
  intros w g stripe client t log r c' t' H. apply attempts_ok in H; [|lia].
  destruct H as [_ _ _ A B C _ D]. split; [|split; [|split]].
  - intros c o Hin. destruct (A c o Hin) as [->|X]; auto. right. now apply accepts_iff.
  - destruct B as [->|X]; auto. right. now apply accepts_iff.
  - intros c Hin N. assert (S : settles w g (ADial (Some c)) (RErr ErrGeometry)) by now constructor.
    destruct D as [(pre & a & -> & U & Da)|(U & _)].
    + apply in_app_or in Hin as [Hin|[->|[]]].
      * exfalso. rewrite undecided_iff in U. eapply U; eauto.
      * apply decides_iff in S. rewrite Da in S. injection S as ->. split; eauto.
    + exfalso. rewrite undecided_iff in U. eapply U; eauto.
  - intros d Hd. destruct (C d Hd) as (t0 & _ & E). eauto.
Qed.

Lemma new_start : forall w conns ssc t s g n, pool_new w conns ssc t = Ok (s, g, n) ->
  s = mk_pool [] (map (fun c => (c, None)) conns) [] [] t /\ fst g = ssc /\ conns <> [].
Proof.
  intros w conns ssc t s g n Hn. unfold pool_new in Hn. destruct conns as [|c cs0]; [discriminate|].
  destruct (w_meta w c) as [m|]; [|discriminate].
  destruct (stripe_sector_count m =? ssc)%N eqn:E; cbn [negb] in Hn; [|discriminate].
  destruct (remote_sector_count m) as [n'| |]; try discriminate.
  injection Hn as <- <- <-. split; auto. split; [cbn [fst geometry_of]; lia|discriminate].
Qed.
Lemma start_ok : forall conns t, let s := mk_pool [] (map (fun c => (c, None)) conns) [] [] t in
  pinv s /\ outstanding s = [].
Proof.
  intros conns t s.
  assert (O : outstanding s = []).
  { unfold s, outstanding, in_workers. cbn [p_queue p_workers p_results app map]. rewrite app_nil_r.
    induction conns as [|x l IH]; cbn; auto. }
  split; auto. split; [constructor|]. rewrite O. constructor.
Qed.

(** The whole source, started from a pool of connections, for every schedule of
    requests, workers and polls in which no stripe is requested again while a
    request for it waits: answered and waiting requests together are exactly the
    requests made, each once, and the source is busy exactly while some wait. *)
Theorem C33_answered_exactly_once : forall w conns ssc t s g n es s' cs,
  pool_new w conns ssc t = Ok (s, g, n) -> respects w g s es ->
  pool_run w g s es = Some (s', cs) ->
  Permutation (map fst cs ++ outstanding s') (requested es) /\
  Permutation (outstanding s') (map fst (p_pending s')) /\
  (pool_busy s' = true <-> outstanding s' <> []).
Proof.
  intros w conns ssc t s g n es s' cs Hn R H.
  apply new_start in Hn as (-> & _ & _). destruct (start_ok conns t) as [I O].
  destruct (run_inv _ _ _ _ _ _ I R H) as [[N P] Q]. rewrite O, app_nil_r in Q.
  split; auto. split; auto. unfold pool_busy. destruct (p_pending s') as [|x l].
  - cbn in P. apply Permutation_sym, Permutation_nil in P. rewrite P. split; congruence.
  - split; auto. intros _ E. rewrite E in P. apply Permutation_nil in P. discriminate.
Qed.

(** While a request waits, a worker can take or finish one or a poll returns
    something, and each such step gets closer to the answer. *)
Theorem C33_progress : forall w conns ssc t s g n es s' cs,
  pool_new w conns ssc t = Ok (s, g, n) -> respects w g s es ->
  pool_run w g s es = Some (s', cs) -> outstanding s' <> [] ->
  (exists e s2 cs2, (forall i len, e <> PRequest i len) /\ pool_step w g s' e = Some (s2, cs2) /\
     left_to_do s2 < left_to_do s') /\
  (forall e s2 cs2, (forall i len, e <> PRequest i len) -> e <> PPoll ->
     pool_step w g s' e = Some (s2, cs2) -> left_to_do s2 < left_to_do s').
Proof.
  intros w conns ssc t s g n es s' cs Hn R H O.
  apply new_start in Hn as (-> & _ & Hne). destruct (start_ok conns t) as [I _].
  set (s := mk_pool [] (map (fun c => (c, None)) conns) [] [] t) in *.
  assert (W : p_workers s <> []) by (cbn; destruct conns; [congruence|discriminate]).
  destruct (run_inv _ _ _ _ _ _ I R H) as [I' _].
  assert (W' : p_workers s' <> []).
  { clearbody s. clear - H W. revert s s' cs H W. induction es as [|e es IH]; intros s s' cs H W; cbn [pool_run] in H.
    - injection H as <- <-. exact W.
    - destruct (pool_step w g s e) as [[s1 c1]|] eqn:E; [|discriminate].
      destruct (pool_run w g s1 es) as [[s2 c2]|] eqn:E2; [|discriminate]. injection H as <- <-.
      apply (IH _ _ _ E2). destruct e as [i len|k|k|]; cbn [pool_step] in E.
      + injection E as <- <-. exact W.
      + destruct (nth_error (p_workers s) k) as [[c [j|]]|]; try discriminate.
        destruct (p_queue s); [discriminate|]. injection E as <- <-. cbn.
        intros X. apply W. apply (f_equal (@length _)) in X. rewrite set_nth_length in X. destruct (p_workers s); auto; discriminate.
      + destruct (nth_error (p_workers s) k) as [[c [j|]]|]; try discriminate.
        destruct (fetch_with_reconnect w g j c (p_time s)) as [[[? ?] ?] ?]. injection E as <- <-. cbn [p_workers].
        intros X. apply W. apply (f_equal (@length _)) in X. rewrite set_nth_length in X. destruct (p_workers s); auto; discriminate.
      + destruct (pool_poll (p_results s) (p_pending s)) as [cs0 p]. injection E as <- <-. exact W. }
  split.
  - apply progress; auto. intros X. destruct I' as [_ P]. rewrite X in P. cbn in P.
    apply Permutation_sym, Permutation_nil in P. contradiction.
  - intros e s2 cs2 He Hp E. eapply no_increase; eauto.
Qed.

(** The data.  A pool is accepted only if the first server's stripes have the
    device's size.  If all its connections see the same geometry, and every fetch
    over a connection returns a whole stripe of that connection's geometry (C31),
    then every stripe delivered is the complete data some server of that geometry
    sent for exactly that stripe. *)
Theorem C33_contents : forall w conns ssc t s g n es s' cs,
  pool_new w conns ssc t = Ok (s, g, n) ->
  (forall c, In c conns -> same_geometry w g c) ->
  (forall t c i d m, w_fetch w t c i = FData d -> w_meta w c = Some m ->
     N.of_nat (length d) = (512 * 2 ^ md_shift m)%N) ->
  (forall i len, In (PRequest i len) es -> N.of_nat len = (512 * ssc)%N) ->
  pool_run w g s es = Some (s', cs) ->
  fst g = ssc /\
  forall i b, In (i, Some b) cs ->
    exists c t, same_geometry w g c /\ w_fetch w t c i = FData b.
Proof.
  intros w conns ssc t s g n es s' cs Hn Hc Hf Hl H.
  apply new_start in Hn as (-> & Hg & _).
  split; auto. intros i b Hin.
  destruct (run_contents w g (N.to_nat (512 * ssc)) es (mk_pool [] (map (fun c => (c, None)) conns) [] [] t) s' cs) with (i := i) (b := b)
    as (d & (c & t0 & G & F) & Hb & Hd); auto.
  - intros c o Hco. cbn in Hco. apply in_map_iff in Hco as (c0 & E & Hin0). injection E as <- <-.
    apply accepts_iff. auto.
  - intros j d [].
  - intros j len [].
  - intros j len Hj. apply Hl in Hj. lia.
  - apply accepts_iff in G. destruct G as (m & Em & E1 & E2).
    pose proof (Hf t0 c i d m F Em) as L. rewrite E1, Hg in L.
    replace (N.to_nat (512 * ssc) - length d) with 0 in Hb by lia. cbn in Hb. rewrite app_nil_r in Hb. subst d.
    exists c, t0. split; auto. exists m. auto.
Qed.

(** ** What the check does not catch *)

(** Only the first connection of the initial pool is checked: if the server is
    replaced while the pool is being connected, a stripe of a smaller geometry is
    accepted and padded with zeros. *)
Definition ex_meta (shift : N) (hs : list byte) : metadata := current_metadata shift hs.
Definition ex_pool_world : world :=
  mk_world (fun _ => None)
    (fun c => if c =? 0 then Some (ex_meta 1 [2; 2]%N) else Some (ex_meta 0 [2; 2; 2; 2]%N))
    (fun t c i => if c =? 0 then FData (repeat (N.of_nat i + 1)%N 1024) else FData (repeat (N.of_nat i + 1)%N 512)).

Theorem C33_refuted_unchecked_pool :
  exists w conns s g n s' b,
    pool_new w conns 2 0 = Ok (s, g, n) /\
    pool_run w g s [PRequest 1 1024; PTake 1; PFinish 1; PPoll] = Some (s', [(1, Some b)]) /\
    b <> repeat 2%N 1024 /\
    (forall c t d, same_geometry w g c -> w_fetch w t c 1 = FData d -> d = repeat 2%N 1024).
Proof.
  exists ex_pool_world, [0; 1]. eexists _, _, _, _, _. split; [vm_compute; reflexivity|].
  split; [vm_compute; reflexivity|]. split.
  - intros H. apply (f_equal (fun l => nth 1000 l 5%N)) in H. vm_compute in H. discriminate.
  - intros c t d (m & Em & E & _) F. cbn in *. destruct (c =? 0).
    + injection F as <-. reflexivity.
    + injection Em as <-. cbn in E. discriminate.
Qed.

(** A reconnect checks the geometry only: a server with other contents but the same
    stripe size and count is accepted, although its metadata differs. *)
Theorem C33_refuted_same_geometry :
  exists w client c' g m m' log d t',
    w_meta w client = Some m /\ g = (2 ^ md_shift m, length (md_headers m))%N /\
    fetch_with_reconnect w g 0 client 0 = (log, ROk d, c', t') /\
    w_meta w c' = Some m' /\ m' <> m.
Proof.
  exists (mk_world (fun _ => Some 1)
    (fun c => if c =? 0 then Some (ex_meta 1 [2; 2]%N) else Some (ex_meta 1 [4; 4]%N))
    (fun t c i => if c =? 0 then FTransport else FData (repeat 7%N 1024))), 0, 1.
  eexists _, _, _, _, _, _. split; [reflexivity|]. split; [reflexivity|]. split; [vm_compute; reflexivity|].
  split; [reflexivity|]. discriminate.
Qed.

(** If a stripe is requested again while a request for it waits, only one of the two
    requests is answered (the caller must not do that; the fetcher does not). *)
Theorem C33_duplicates_need_contract :
  exists w s g n s' cs,
    pool_new w [0] 2 0 = Ok (s, g, n) /\
    pool_run w g s [PRequest 1 1024; PRequest 1 1024; PTake 0; PFinish 0; PPoll; PTake 0; PFinish 0; PPoll] = Some (s', cs) /\
    length cs = 1 /\ outstanding s' = [].
Proof.
  exists ex_pool_world. eexists _, _, _, _, _. split; [vm_compute; reflexivity|].
  split; [vm_compute; reflexivity|]. split; reflexivity.
Qed.

(** ** Concrete cases *)
(** A connection that breaks, two failed dials, then a good connection. *)
Definition flaky : world :=
  mk_world (fun t => if t <? 3 then None else Some 1)
    (fun c => Some (ex_meta 0 [2; 0; 6]%N))
    (fun t c i => if c =? 0 then FTransport else FData (repeat (N.of_nat i) 512)).
Example C33_nonvacuous :
  exists s g n s' , pool_new flaky [0; 0] 1 0 = Ok (s, g, n) /\ n = 3%N /\
    let es := [PRequest 2 512; PRequest 0 512; PTake 1; PTake 0; PFinish 0; PPoll; PFinish 1; PPoll] in
    respects flaky g s es /\
    pool_run flaky g s es = Some (s', [(0, Some (repeat 0%N 512)); (2, Some (repeat 2%N 512))]) /\
    (forall c, In c [0; 0] -> same_geometry flaky g c).
Proof.
  eexists _, _, _, _. split; [vm_compute; reflexivity|]. split; [reflexivity|]. split; [|split].
  - cbn [respects allowed]. repeat (split; [vm_compute; intuition discriminate|]; vm_compute; try exact Logic.I).
  - vm_compute. reflexivity.
  - intros c [<-|[<-|[]]]; exists (ex_meta 0 [2; 0; 6]%N); repeat split; reflexivity.
Qed.
Example C33_retry_log :
  fetch_with_reconnect flaky (1%N, 3) 2 0 0 =
  ([AFetch 0 FTransport; ADial None; ASleep 500; ADial None; ASleep 1000; ADial (Some 1);
    AFetch 1 (FData (repeat 2%N 512))], ROk (repeat 2%N 512), 1, 5).
Proof. vm_compute. reflexivity. Qed.

Print Assumptions C33_retries_bounded.
Print Assumptions C33_outcome.
Print Assumptions C33_no_mixing.
Print Assumptions C33_answered_exactly_once.
Print Assumptions C33_progress.
Print Assumptions C33_contents.
Print Assumptions C33_refuted_unchecked_pool.
Print Assumptions C33_refuted_same_geometry.
Print Assumptions C33_duplicates_need_contract.
