(** C58 and C59: connections with a pre-shared key, and the server process. *)
From Coq Require Import List Arith NArith Bool Lia ZifyBool ZifyNat ZifyN.
Import ListNotations.
From Verif Require Import Base BaseFacts MetadataModel MetadataProofs MetadataSpec RemoteModel PskModel PskSpec.

(** ** The handshake *)

Lemma bytes_eqb_reflect : forall a b, reflect (a = b) (bytes_eqb a b).
Proof. intros a b. apply iff_reflect. symmetry. apply bytes_eqb_spec. Qed.

Lemma c_string_spec : forall l, exists rest, l = c_string l ++ rest /\ (rest = [] \/ hd 1%N rest = 0%N).
Proof.
  induction l as [|b l (rest & E & H)]; [exists []; cbn; auto|]. cbn [c_string].
  destruct (b =? 0)%N eqn:Eb; [exists (b :: l); cbn; split; [reflexivity|right; lia]|].
  exists rest. cbn. rewrite <- E. auto.
Qed.

Lemma c_string_no_zero : forall l, no_zero (c_string l).
Proof.
  induction l as [|b l IH]; [intros []|]. cbn [c_string]. destruct (b =? 0)%N eqn:E; [intros []|].
  intros [H|H]; [lia|exact (IH H)].
Qed.

Lemma c_string_id : forall l, no_zero l -> c_string l = l.
Proof.
  unfold no_zero. induction l as [|b l IH]; intros H; [reflexivity|]. cbn [c_string].
  destruct (b =? 0)%N eqn:E; [exfalso; apply H; left; lia|]. f_equal. apply IH. intros X. apply H. now right.
Qed.

Lemma c_string_stop : forall l, no_zero l -> c_string (l ++ [0%N]) = l.
Proof.
  unfold no_zero. induction l as [|b l IH]; intros H; [reflexivity|]. cbn [c_string app].
  destruct (b =? 0)%N eqn:E; [exfalso; apply H; left; lia|]. f_equal. apply IH. intros X. apply H. now right.
Qed.

Lemma server_stream_ok : forall pskbuf c p, wrap_psk_server_stream pskbuf c p = Ok tt <->
  c_string (pe_identity p) = cr_identity c /\ pe_key p = cr_secret c /\ length (cr_secret c) <= pskbuf.
Proof.
  intros pskbuf c p. unfold wrap_psk_server_stream, server_callback, memcmp_eq.
  destruct (length (c_string (pe_identity p)) =? length (cr_identity c)) eqn:L.
  - cbn [bindr]. destruct (bytes_eqb_reflect (c_string (pe_identity p)) (cr_identity c)) as [E|E]; cbn [negb].
    + destruct (pskbuf <? length (cr_secret c)) eqn:B; cbn [bindr].
      * split; [discriminate|intros (_ & _ & H); lia].
      * unfold agree. destruct (bytes_eqb_reflect (cr_secret c) (pe_key p)) as [K|K]; split; intros H; try discriminate; auto.
        -- split; [exact E|]. split; [auto|lia].
        -- destruct H as (_ & H & _). congruence.
    + split; [discriminate|intros (H & _); congruence].
  - cbn [bindr]. split; [discriminate|]. intros (H & _). rewrite H in L. lia.
Qed.

Lemma server_stream_panic : forall pskbuf c p, wrap_psk_server_stream pskbuf c p = Panic <->
  length (c_string (pe_identity p)) <> length (cr_identity c).
Proof.
  intros pskbuf c p. unfold wrap_psk_server_stream, server_callback, memcmp_eq.
  destruct (length (c_string (pe_identity p)) =? length (cr_identity c)) eqn:L; cbn [bindr].
  - split; [|intros H; lia]. destruct (bytes_eqb _ _); cbn [negb bindr]; [|discriminate].
    destruct (pskbuf <? _); cbn [bindr]; [discriminate|]. destruct (agree _ _); discriminate.
  - split; [intros _; lia|auto].
Qed.

(** A server with credentials completes a handshake only with peers that hold them,
    and with all of those if the secret fits in OpenSSL's buffer. *)
Theorem C58_server_admits : forall pskbuf c p, no_zero (cr_identity c) ->
  (wrap_psk_server_stream pskbuf c p = Ok tt <-> holds c p /\ length (cr_secret c) <= pskbuf).
Proof.
  intros pskbuf c p Z. rewrite server_stream_ok. unfold holds. split.
  - intros (E & K & L). split; [|exact L]. split; [exact K|].
    destruct (c_string_spec (pe_identity p)) as (rest & R & H). exists rest. rewrite <- E. auto.
  - intros ((K & rest & R & H) & L). split; [|auto]. rewrite R. clear - Z H. unfold no_zero in Z.
    induction (cr_identity c) as [|b l IH].
    + cbn [app]. destruct H as [->|H]; [reflexivity|]. destruct rest as [|x r]; [discriminate|]. cbn in H |- *. now rewrite H.
    + cbn [c_string app]. destruct (b =? 0)%N eqn:E; [exfalso; apply Z; left; lia|]. f_equal. apply IH.
      intros X. apply Z. now right.
Qed.

(** A client with credentials completes a handshake only with a server that uses the
    client's secret for the client's identity. *)
Theorem C58_client_admits : forall idbuf pskbuf c key_for, no_zero (cr_identity c) ->
  (wrap_psk_client_stream idbuf pskbuf c key_for = Ok tt <->
   key_for (cr_identity c) = Some (cr_secret c) /\ length (cr_identity c) < idbuf /\ length (cr_secret c) <= pskbuf).
Proof.
  intros idbuf pskbuf c key_for Z. unfold wrap_psk_client_stream, client_callback.
  destruct (idbuf <=? length (cr_identity c)) eqn:I; [split; [discriminate|lia]|].
  destruct (pskbuf <? length (cr_secret c)) eqn:B; [split; [discriminate|lia]|].
  rewrite (c_string_stop _ Z). destruct (key_for (cr_identity c)) as [k|]; [|split; [discriminate|intros (H & _); discriminate]].
  unfold agree. destruct (bytes_eqb_reflect (cr_secret c) k) as [<-|E].
  - split; [intros _; split; [reflexivity|lia]|reflexivity].
  - split; [discriminate|intros (H & _); congruence].
Qed.

(** This program's client and server together: they connect if they have the same
    credentials, and only then. *)
Definition client_peer (c : creds) : peer := mk_peer (cr_identity c ++ [0%N]) (cr_secret c).
Definition key_of_server (pskbuf : nat) (c : creds) (i : list byte) : option (list byte) :=
  match server_callback pskbuf c (Some i) with Ok k => k | _ => None end.
Theorem C58_same_credentials : forall idbuf pskbuf c1 c2,
  no_zero (cr_identity c1) -> no_zero (cr_identity c2) ->
  length (cr_identity c1) < idbuf -> length (cr_secret c1) <= pskbuf -> length (cr_secret c2) <= pskbuf ->
  (wrap_psk_client_stream idbuf pskbuf c1 (key_of_server pskbuf c2) = Ok tt <-> c1 = c2) /\
  (wrap_psk_server_stream pskbuf c2 (client_peer c1) = Ok tt <-> c1 = c2).
Proof.
  intros idbuf pskbuf [i1 s1] [i2 s2] Z1 Z2 L1 L2 L3. cbn [cr_identity cr_secret] in *. split.
  - rewrite C58_client_admits by exact Z1. cbn [cr_identity cr_secret]. unfold key_of_server, server_callback, memcmp_eq.
    cbn [cr_identity cr_secret]. destruct (length i1 =? length i2) eqn:E; cbn [bindr].
    + destruct (bytes_eqb_reflect i1 i2) as [<-|N]; cbn [negb].
      * replace (pskbuf <? length s2) with false by lia. split; [intros (H & _); congruence|].
        intros H. injection H as <-. auto.
      * split; [intros (H & _); discriminate|congruence].
    + split; [intros (H & _); discriminate|]. intros H. injection H as -> ->. rewrite Nat.eqb_refl in E. discriminate.
  - rewrite C58_server_admits by exact Z2. unfold holds, client_peer. cbn [pe_identity pe_key cr_identity cr_secret]. split.
    + intros ((-> & rest & R & H) & _). destruct H as [->|H].
      * rewrite app_nil_r in R. exfalso. apply Z2. rewrite <- R. apply in_app_iff. right. now left.
      * destruct rest as [|x r]; [discriminate|]. cbn in H. subst x. f_equal.
        assert (r = []) as ->. { destruct (@exists_last _ (0%N :: r)) as (r' & y & E); [discriminate|].
          rewrite E in R. rewrite app_assoc in R. apply app_inj_tail in R as [R Y]. subst y. destruct r' as [|z r'].
          - injection E as E. destruct r; [reflexivity|discriminate].
          - injection E as Ez E. subst z. exfalso. apply Z1. rewrite R. apply in_app_iff. right. now left. }
        now apply app_inj_tail in R as [R _].
    + intros H. injection H as -> ->. split; [|exact L3]. split; [reflexivity|]. exists [0%N]. auto.
Qed.

(** ** The server process *)

Section Process.
Variable pskbuf : nat.
Variable psk : option creds.
Variable ss : session.
Notation step := (server_step pskbuf psk ss).
Notation run := (server_run pskbuf psk ss).

Lemma run_app : forall es1 es2 s, run s (es1 ++ es2) = run (run s es1) es2.
Proof. induction es1 as [|e es1 IH]; intros es2 s; [reflexivity|]. cbn [server_run app]. apply IH. Qed.

Lemma down_stays : forall es s, sv_up s = false -> run s es = s.
Proof.
  induction es as [|e es IH]; intros s H; [reflexivity|]. cbn [server_run].
  assert (step s e = s) as -> by (unfold server_step; now rewrite H). auto.
Qed.

(** Every connection of the server is one that was made, and what it went through. *)
Definition admitted (p : peer) : Prop := forall c, psk = Some c -> wrap_psk_server_stream pskbuf c p = Ok tt.
Definition conn_ok (made : list (peer * list byte)) (i : nat) (cn : conn) : Prop :=
  exists p input, nth_error made i = Some (p, input) /\
    match cn_phase cn with
    | PHandshake p' input' => p' = p /\ input' = input /\ cn_sent cn = []
    | PSession _ => admitted p
    | PClosed => cn_sent cn <> [] -> admitted p
    end.

Lemma conns_ok : forall es made s,
  (forall i cn, nth_error (sv_conns s) i = Some cn -> conn_ok made i cn) ->
  (sv_up s = true -> length made = length (sv_conns s)) ->
  (forall i cn, nth_error (sv_conns (run s es)) i = Some cn -> conn_ok (made ++ connects es) i cn).
Proof.
  induction es as [|e es IH]; intros made s H L; [cbn; rewrite app_nil_r; exact H|].
  destruct (sv_up s) eqn:U.
  2:{ rewrite down_stays by exact U. intros i cn Hc. destruct (H i cn Hc) as (p & inp & N & R).
      exists p, inp. split; [|exact R]. rewrite nth_error_app1; [exact N|]. apply nth_error_Some. congruence. }
  specialize (L eq_refl). cbn [server_run]. 
  assert (G : forall i cn' cn0, nth_error (sv_conns s) i = Some cn0 -> conn_ok made i cn' ->
    forall j cn, nth_error (set_nth i cn' (sv_conns s)) j = Some cn -> conn_ok made j cn).
  { intros i cn' cn0 Hi Hc j cn Hj. assert (i < length (sv_conns s)) by (apply nth_error_Some; congruence).
    destruct (Nat.eq_dec i j) as [<-|N].
    - rewrite nth_error_set_nth_eq in Hj by lia. injection Hj as <-. exact Hc.
    - rewrite nth_error_set_nth_neq in Hj by exact N. auto. }
  destruct e as [p inp| |i|i o].
  - intros i cn Hc. replace (made ++ connects (NConnect p inp :: es)) with ((made ++ [(p, inp)]) ++ connects es) by (rewrite <- app_assoc; reflexivity).
    refine (IH (made ++ [(p, inp)]) _ _ _ i cn Hc).
    + unfold server_step. rewrite U. cbn [negb sv_conns]. intros j cn' Hj.
      destruct (Nat.lt_ge_cases j (length (sv_conns s))) as [Lt|Ge].
      * rewrite nth_error_app1 in Hj by exact Lt. destruct (H j cn' Hj) as (p' & inp' & N & R).
        exists p', inp'. split; [|exact R]. rewrite nth_error_app1; [exact N|lia].
      * rewrite nth_error_app2 in Hj by exact Ge. destruct (j - length (sv_conns s)) as [|k] eqn:E; [|destruct k; discriminate].
        injection Hj as <-. exists p, inp. split; [|cbn; auto]. rewrite nth_error_app2 by lia. replace (j - length made) with 0 by lia. reflexivity.
    + intros _. unfold server_step. rewrite U. cbn [negb sv_conns]. rewrite !app_length. cbn. lia.
  - cbn [connects]. apply (IH made); unfold server_step; rewrite U; cbn [negb sv_conns]; auto. 
  - cbn [connects]. apply (IH made); unfold server_step; rewrite U; cbn [negb sv_conns];
      destruct (nth_error (sv_conns s) i) as [[[p inp|inp|] sent]|] eqn:Ei; auto.
    + destruct (H i _ Ei) as (p' & inp' & N & Hp). cbn in Hp. destruct Hp as (-> & -> & ->).
      unfold handshake. destruct psk as [c|] eqn:Ep.
      * destruct (wrap_psk_server_stream pskbuf c p') as [[]| |] eqn:W; cbn [sv_conns]; auto; (eapply G; [exact Ei|]);
          exists p', inp'; (split; [exact N|]); cbn; [|congruence]. intros c' E'. congruence.
      * cbn [sv_conns]. eapply G; [exact Ei|]. exists p', inp'. split; [exact N|]. cbn. intros c' E'. congruence.
    + destruct (handshake pskbuf psk p inp); cbn [sv_conns]; [|auto|auto]. rewrite set_nth_length. auto.
  - cbn [connects]. apply (IH made); unfold server_step; rewrite U; cbn [negb sv_conns];
      destruct (nth_error (sv_conns s) i) as [[[p inp|inp|] sent]|] eqn:Ei; auto.
    + destruct (H i _ Ei) as (p' & inp' & N & Hp). cbn in Hp.
      destruct (handle_single_request ss o inp) as [[out [rest|]]| |]; cbn [sv_conns]; (eapply G; [exact Ei|]);
        exists p', inp'; (split; [exact N|]); cbn; auto.
    + destruct (handle_single_request ss o inp) as [[out [rest|]]| |]; cbn [sv_conns]; rewrite set_nth_length; auto.
Qed.

(** Whatever happens, a server with credentials sends nothing to a peer that does
    not hold them. *)
Theorem C58_nothing_without_the_key : forall es c i cn, psk = Some c ->
  nth_error (sv_conns (run server_start es)) i = Some cn -> cn_sent cn <> [] ->
  exists p input, nth_error (connects es) i = Some (p, input) /\ holds c p.
Proof.
  intros es c i cn Hp Hc Hs.
  destruct (conns_ok es [] server_start) with (i := i) (cn := cn) as (p & input & N & R); auto.
  { intros j x H. destruct j; discriminate. }
  exists p, input. split; [exact N|].
  assert (A : admitted p) by (destruct (cn_phase cn); [destruct R as (_ & _ & R); congruence|exact R|exact (R Hs)]).
  specialize (A c Hp). apply server_stream_ok in A as (E & K & _). split; [exact K|].
  destruct (c_string_spec (pe_identity p)) as (rest & R' & H). exists rest. rewrite <- E. auto.
Qed.

(** The process ends only if accept gives an error, or a peer names an identity
    whose length is not that of the server's. *)
Theorem C59_ends_only : forall es, sv_up (run server_start es) = false ->
  In NAcceptError es \/
  exists c p input, psk = Some c /\ In (NConnect p input) es /\ length (c_string (pe_identity p)) <> length (cr_identity c).
Proof.
  intros es. induction es as [|e es IH] using rev_ind; [discriminate|]. rewrite run_app. cbn [server_run].
  intros D. set (s := run server_start es) in *. destruct (sv_up s) eqn:U.
  2:{ destruct (IH eq_refl) as [H|(c & p & inp & A & B & C)]; [left; apply in_app_iff; auto|right].
      exists c, p, inp. split; [exact A|]. split; [apply in_app_iff; auto|exact C]. }
  unfold server_step in D. rewrite U in D. cbn [negb] in D. destruct e as [p inp| |i|i o]; [discriminate| | |].
  - left. apply in_app_iff. right. now left.
  - right. destruct (nth_error (sv_conns s) i) as [[[p inp|inp|] sent]|] eqn:Ei; try congruence.
    destruct (conns_ok es [] server_start) with (i := i) (cn := mk_conn (PHandshake p inp) sent) as (p' & inp' & N & R); auto.
    { intros j x H. destruct j; discriminate. }
    cbn in R. destruct R as (-> & -> & _). unfold handshake in D. destruct psk as [c|] eqn:Ep; [|discriminate].
    destruct (wrap_psk_server_stream pskbuf c p') as [[]| |] eqn:W; try discriminate.
    apply server_stream_panic in W. exists c, p', inp'. split; [reflexivity|]. split; [|exact W].
    apply in_app_iff. left. apply nth_error_In in N. cbn [app] in N. clear - N.
    induction es as [|e es IH]; [destruct N|]. destruct e; cbn in N; try (right; apply IH; exact N).
    destruct N as [N|N]; [injection N as -> ->; now left|right; auto].
  - destruct (nth_error (sv_conns s) i) as [[[p inp|inp|] sent]|] eqn:Ei; try congruence.
    destruct (handle_single_request ss o inp) as [[out [rest|]]| |]; discriminate.
Qed.

(** As long as it runs, connections do not disturb each other: each is in the state,
    and has been sent the bytes, that it would have been sent alone. *)
Theorem C59_undisturbed : forall es i, sv_up (run server_start es) = true ->
  nth_error (sv_conns (run server_start es)) i = nth_error (sv_conns (run server_start (only 0 i es))) 0.
Proof.
  intros es i U.
  assert (G : forall es s s', sv_up (run s es) = true -> sv_up s' = true ->
    nth_error (sv_conns s) i = nth_error (sv_conns s') 0 ->
    length (sv_conns s') = (if i <? length (sv_conns s) then 1 else 0) ->
    nth_error (sv_conns (run s es)) i = nth_error (sv_conns (run s' (only (length (sv_conns s)) i es))) 0).
  2:{ apply (G es server_start server_start U eq_refl); [destruct i; reflexivity|reflexivity]. }
  clear es U. induction es as [|e es IH]; intros s s' U U' E L; [exact E|]. cbn [server_run] in *.
  assert (Us : sv_up s = true).
  { destruct (sv_up s) eqn:X; [reflexivity|]. assert (step s e = s) as Y by (unfold server_step; now rewrite X).
    rewrite Y, down_stays in U by exact X. congruence. }
  assert (Us1 : sv_up (step s e) = true).
  { destruct (sv_up (step s e)) eqn:X; [reflexivity|]. rewrite down_stays in U by exact X. congruence. }
  assert (Keep : length (sv_conns (step s e)) = length (sv_conns s) -> nth_error (sv_conns (step s e)) i = nth_error (sv_conns s) i ->
     nth_error (sv_conns (run (step s e) es)) i = nth_error (sv_conns (run s' (only (length (sv_conns s)) i es))) 0).
  { intros A B. rewrite <- A. apply IH; auto; [rewrite B; exact E|rewrite A; exact L]. }
  destruct e as [p inp| |j|j o].
  - cbn [only]. assert (step s (NConnect p inp) = mk_server true (sv_conns s ++ [mk_conn (PHandshake p inp) []])) as S1 by (unfold server_step; rewrite Us; reflexivity).
    rewrite S1 in *. destruct (length (sv_conns s) =? i) eqn:Ei.
    + assert (i = length (sv_conns s)) by lia. subst i.
      rewrite Nat.ltb_irrefl in L. cbn [server_run].
      assert (step s' (NConnect p inp) = mk_server true [mk_conn (PHandshake p inp) []]) as S2.
      { unfold server_step. rewrite U'. cbn [negb]. destruct (sv_conns s'); [reflexivity|discriminate]. }
      rewrite S2. replace (S (length (sv_conns s))) with (length (sv_conns (mk_server true (sv_conns s ++ [mk_conn (PHandshake p inp) []])))) by (cbn; rewrite app_length; cbn; lia).
      apply IH; auto.
      * cbn [sv_conns]. rewrite nth_error_app2, Nat.sub_diag by lia. reflexivity.
      * cbn [sv_conns length]. rewrite app_length. cbn [length]. destruct (Nat.ltb_spec (length (sv_conns s)) (length (sv_conns s) + 1)); [reflexivity|lia].
    + replace (S (length (sv_conns s))) with (length (sv_conns (mk_server true (sv_conns s ++ [mk_conn (PHandshake p inp) []])))) by (cbn; rewrite app_length; cbn; lia).
      apply IH; auto.
      * cbn [sv_conns]. rewrite <- E. destruct (Nat.lt_ge_cases i (length (sv_conns s))) as [Lt|Ge].
        -- apply nth_error_app1. exact Lt.
        -- transitivity (@None conn); [|symmetry]; apply nth_error_None; [rewrite app_length; cbn; lia|lia].
      * cbn [sv_conns]. rewrite L, app_length. cbn [length]. replace (i <? length (sv_conns s) + 1) with (i <? length (sv_conns s)) by lia. reflexivity.
  - cbn [only]. unfold server_step in Us1. rewrite Us in Us1. discriminate.
  - cbn [only]. destruct (j =? i) eqn:Ej.
    + assert (j = i) by lia. subst j. cbn [server_run].
      unfold server_step in Keep, Us1, U |- *. rewrite Us in Keep, Us1, U |- *. rewrite U' . cbn [negb] in *.
      rewrite <- E in *. destruct (nth_error (sv_conns s) i) as [[[p inp|inp|] sent]|] eqn:Ei; try (apply Keep; auto; fail).
      destruct (handshake pskbuf psk p inp) as [ph| |]; [|discriminate|discriminate].
      assert (Li : i < length (sv_conns s)) by (apply nth_error_Some; congruence).
      rewrite <- (set_nth_length i (mk_conn ph sent) (sv_conns s)) at 1.
      change (set_nth i (mk_conn ph sent) (sv_conns s)) with (sv_conns (mk_server true (set_nth i (mk_conn ph sent) (sv_conns s)))) at 1.
      apply IH; auto; cbn [sv_conns].
      * rewrite nth_error_set_nth_eq by exact Li. replace (i <? length (sv_conns s)) with true in L by lia.
        rewrite nth_error_set_nth_eq by lia. reflexivity.
      * rewrite !set_nth_length. exact L.
    + apply Keep; unfold server_step; rewrite Us; cbn [negb];
        destruct (nth_error (sv_conns s) j) as [[[p inp|inp|] sent]|] eqn:Ei; auto;
        destruct (handshake pskbuf psk p inp); cbn [sv_conns]; auto.
      * apply set_nth_length.
      * apply nth_error_set_nth_neq. lia.
  - cbn [only]. destruct (j =? i) eqn:Ej.
    + assert (j = i) by lia. subst j. cbn [server_run].
      unfold server_step in Keep, Us1, U |- *. rewrite Us in Keep, Us1, U |- *. rewrite U' . cbn [negb] in *.
      rewrite <- E in *. destruct (nth_error (sv_conns s) i) as [[[p inp|inp|] sent]|] eqn:Ei; try (apply Keep; auto; fail).
      assert (Li : i < length (sv_conns s)) by (apply nth_error_Some; congruence).
      replace (i <? length (sv_conns s)) with true in L by lia.
      assert (St : forall cn, sv_up (run (mk_server true (set_nth i cn (sv_conns s))) es) = true ->
        nth_error (sv_conns (run (mk_server true (set_nth i cn (sv_conns s))) es)) i =
        nth_error (sv_conns (run (mk_server true (set_nth 0 cn (sv_conns s'))) (only (length (sv_conns s)) i es))) 0).
      { intros cn Uc. replace (length (sv_conns s)) with (length (sv_conns (mk_server true (set_nth i cn (sv_conns s))))) by (cbn; apply set_nth_length).
        apply IH; auto; cbn [sv_conns].
        - rewrite nth_error_set_nth_eq by exact Li. rewrite nth_error_set_nth_eq by lia. reflexivity.
        - rewrite !set_nth_length. replace (i <? length (sv_conns s)) with true by lia. exact L. }
      destruct (handle_single_request ss o inp) as [[out [rest|]]| |]; apply St; exact U.
    + apply Keep; unfold server_step; rewrite Us; cbn [negb];
        destruct (nth_error (sv_conns s) j) as [[[p inp|inp|] sent]|] eqn:Ei; auto;
        destruct (handle_single_request ss o inp) as [[out [rest|]]| |]; cbn [sv_conns];
        first [apply set_nth_length | apply nth_error_set_nth_neq; lia].
Qed.

(** Any peer can end a server that has credentials, whatever its state, without
    knowing the secret: it names an identity of another length. *)
Theorem C59_refuted_identity : forall es c p input later, psk = Some c ->
  length (c_string (pe_identity p)) <> length (cr_identity c) -> sv_up (run server_start es) = true ->
  let s := run server_start (es ++ [NConnect p input; NHandshake (length (sv_conns (run server_start es)))] ++ later) in
  sv_up s = false /\ length (sv_conns s) = S (length (sv_conns (run server_start es))).
Proof.
  intros es c p input later Hp L U. rewrite !run_app. set (s0 := run server_start es) in *.
  set (s1 := run s0 _).
  assert (S1 : s1 = mk_server false (sv_conns s0 ++ [mk_conn (PHandshake p input) []])).
  { unfold s1. cbn [server_run]. unfold server_step at 2. rewrite U. cbn [negb]. unfold server_step. cbn [negb sv_up sv_conns].
    rewrite nth_error_app2, Nat.sub_diag by lia. cbn [nth_error]. unfold handshake. rewrite Hp.
    apply (server_stream_panic pskbuf) in L. rewrite L. reflexivity. }
  rewrite down_stays by (rewrite S1; reflexivity). rewrite S1. cbn [sv_up sv_conns]. rewrite app_length. cbn. split; [reflexivity|lia].
Qed.

(** One error of accept, such as a connection that is aborted before it is accepted
    or too many open files, ends the server for all clients. *)
Theorem C59_refuted_accept_error : forall es later,
  sv_up (run server_start (es ++ NAcceptError :: later)) = false.
Proof.
  intros es later. rewrite run_app. cbn [server_run]. 
  assert (D : sv_up (step (run server_start es) NAcceptError) = false).
  { unfold server_step. destruct (sv_up (run server_start es)) eqn:U; [reflexivity|exact U]. }
  now rewrite down_stays.
Qed.

End Process.

(** ** Examples *)

Definition demo_creds : creds := mk_creds [99; 49]%N (repeat 7%N 16).
Definition demo_session : session := mk_session (current_metadata 0 [1%N; 0%N]) false.
Definition demo_io : io := mk_io (fun _ _ n => Some (repeat 9%N n)) (fun _ _ => None).
Definition friend : peer := mk_peer [99; 49; 0]%N (repeat 7%N 16).

(** The credentials that are accepted: an identity that is not empty and a secret
    of at least 16 bytes, unchanged; with one of the two given and the other
    missing, nothing is accepted, and with none of them there is no PSK. *)
Theorem C58_usable_credentials : forall identity secret c,
  psk_new identity secret = Ok c <-> identity <> [] /\ 16 <= length secret /\ c = mk_creds identity secret.
Proof.
  intros identity secret c. unfold psk_new. destruct identity as [|b r].
  - split; [discriminate|]. intros (H & _). congruence.
  - destruct (Nat.ltb_spec (length secret) 16).
    + split; [discriminate|]. intros (_ & H1 & _). lia.
    + split.
      * intros E. apply Ok_inj in E. subst. repeat split; [discriminate|assumption].
      * intros (_ & _ & ->). reflexivity.
Qed.

Theorem C58_both_or_none : forall decode unwrap identity secret r,
  parse_psk_credentials decode unwrap identity secret = Ok r ->
  (identity = None /\ secret = None /\ r = None) \/
  (exists i s e d, identity = Some i /\ secret = Some s /\ decode s = Some e /\ unwrap e = Ok d /\
     i <> [] /\ 16 <= length d /\ r = Some (mk_creds i d)).
Proof.
  intros decode unwrap [i|] [s|] r; cbn [parse_psk_credentials]; try discriminate.
  - destruct (decode s) as [e|] eqn:Ed; [|discriminate].
    destruct (unwrap e) as [d|x|] eqn:Eu; cbn [bindr]; try discriminate.
    destruct (psk_new i d) as [c|x|] eqn:En; cbn [bindr]; try discriminate.
    intros E. apply Ok_inj in E. subst r. apply C58_usable_credentials in En as (A & B & ->).
    right. exists i, s, e, d. now repeat split.
  - intros E. apply Ok_inj in E. left. now subst.
Qed.

Example psk_new_nonvacuous : psk_new [99; 49]%N (repeat 7%N 16) = Ok demo_creds /\
  is_err (psk_new [] (repeat 7%N 16)) = true /\ is_err (psk_new [99]%N (repeat 7%N 15)) = true.
Proof. vm_compute. auto. Qed.

(** Two connections; the first holds the key and asks for the protocol version, the
    second has the right identity and the wrong key. *)
Definition demo_events : list snet :=
  [NConnect friend [2%N]; NConnect (mk_peer [99; 49]%N (repeat 8%N 16)) [2%N]; NHandshake 0; NHandshake 1;
   NRequest 1 demo_io; NRequest 0 demo_io].
Example C58_C59_nonvacuous :
  let s := server_run 512 (Some demo_creds) demo_session server_start demo_events in
  sv_up s = true /\ map cn_sent (sv_conns s) = [[0; 1; 0; 0; 0]%N; []] /\ holds demo_creds friend /\
  only 0 1 demo_events = [NConnect (mk_peer [99; 49]%N (repeat 8%N 16)) [2%N]; NHandshake 0; NRequest 0 demo_io].
Proof.
  split; [vm_compute; reflexivity|]. split; [vm_compute; reflexivity|]. split; [|reflexivity].
  split; [reflexivity|]. exists [0%N]. auto.
Qed.

(** An empty identity from a peer that knows nothing ends the server. *)
Example C59_refuted_identity_nonvacuous :
  let s := server_run 512 (Some demo_creds) demo_session server_start
             (demo_events ++ [NConnect (mk_peer [] []) []; NHandshake 2]) in
  sv_up s = false.
Proof. vm_compute. reflexivity. Qed.

(** An identity with a zero byte in it cannot be used: even with the same
    credentials on both sides the client's first connection ends the server. *)
Theorem C59_refuted_zero_in_identity : forall pskbuf ss a b secret,
  no_zero a ->
  let c := mk_creds (a ++ 0%N :: b) secret in
  sv_up (server_run pskbuf (Some c) ss server_start [NConnect (client_peer c) []; NHandshake 0]) = false.
Proof.
  intros pskbuf ss a b secret Z c.
  refine (proj1 (C59_refuted_identity pskbuf (Some c) ss [] c (client_peer c) [] [] eq_refl _ eq_refl)).
  assert (E : c_string (pe_identity (client_peer c)) = a).
  { unfold client_peer, c. cbn [pe_identity cr_identity]. clear - Z. unfold no_zero in Z. rewrite <- app_assoc. cbn [app].
    induction a as [|x a IH]; [reflexivity|]. cbn [c_string app]. destruct (x =? 0)%N eqn:Ex; [exfalso; apply Z; left; lia|].
    f_equal. apply IH. intros X. apply Z. now right. }
  rewrite E. unfold c. cbn [cr_identity]. rewrite app_length. cbn. lia.
Qed.

Print Assumptions C58_usable_credentials.
Print Assumptions C58_both_or_none.
Print Assumptions C58_server_admits.
Print Assumptions C58_client_admits.
Print Assumptions C58_same_credentials.
Print Assumptions C58_nothing_without_the_key.
Print Assumptions C59_ends_only.
Print Assumptions C59_undisturbed.
Print Assumptions C59_refuted_identity.
Print Assumptions C59_refuted_accept_error.
Print Assumptions C59_refuted_zero_in_identity.
