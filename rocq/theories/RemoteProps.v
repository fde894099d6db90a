(** Properties C31, C32 and C34: the remote stripe protocol and legacy metadata. *)
From Coq Require Import List Arith NArith ZArith Bool Lia ZifyBool ZifyNat ZifyN.
Import ListNotations.
From Verif Require Import Base BaseFacts MetadataModel MetadataProofs MetadataSpec MetadataProps RemoteModel RemoteSpec RemoteProofs.
Local Open Scope N_scope.
Ltac Zify.zify_post_hook ::= Z.div_mod_to_equations.

(** ** C31 *)

(** A whole session: whatever requests are sent (followed by any further bytes
    [more]), the server answers them and reads exactly their bytes; a client that
    reads the answers sees the right ones, and nothing is left over. *)
Theorem C31_session_in_sync : forall shift hs src qs os ans more,
  servable shift hs -> answered shift hs src qs os ans ->
  exists out,
    handle_requests (mk_session (current_metadata shift hs) src) os (concat (map encode_request qs) ++ more)
      = Ok (out, Some more) /\
    forall later, client_all (Some (current_metadata shift hs)) qs (out ++ later)
      = (map seen_of ans, later).
Proof.
  intros shift hs src qs os ans more (Hs & Hh & Hm). revert os ans.
  induction qs as [|q qs IH]; intros [|o os] [|a ans] A; cbn in A; try contradiction.
  - exists []. split; reflexivity.
  - destruct A as (F & R & N & A). destruct (IH os ans A) as (out & S & C). clear IH.
    cbn [map concat]. rewrite <- app_assoc.
    destruct (one_request shift hs src o q a (concat (map encode_request qs) ++ more) (conj Hs Hh) F R)
      as (bytes & W & E).
    exists (bytes ++ out). split.
    + cbn [handle_requests]. rewrite E. destruct a; try congruence; cbn [going bindr fst snd]; rewrite S; reflexivity.
    + intros later. cbn [client_all]. rewrite <- app_assoc.
      rewrite (client_on_wire shift hs src o q a bytes (out ++ later)); auto; [|split; auto].
      rewrite C. reflexivity.
Qed.

(** A read that fails is answered with an error status and ends the session. *)
Theorem C31_failed_read_ends_session : forall shift hs src o os q more,
  servable shift hs -> full_reads o -> right_answer shift hs src o q AFailed ->
  handle_requests (mk_session (current_metadata shift hs) src) (o :: os) (encode_request q ++ more)
    = Ok ([255], None) /\
  forall later, client_one (Some (current_metadata shift hs)) q ([255] ++ later) = (SError (EStatus 255), later).
Proof.
  intros shift hs src o os q more (Hs & Hh & Hm) F R.
  destruct (one_request shift hs src o q AFailed more (conj Hs Hh) F R) as (bytes & W & E).
  cbn [handle_requests]. rewrite E. cbn [going bindr fst snd]. cbn [wire] in W. subst bytes. split; auto.
  intros later. apply (client_on_wire shift hs src o q AFailed [255] later); auto; [split; auto|reflexivity].
Qed.

(** An answer cut short at any point is an I/O error, never data. *)
Lemma firstn_short : forall (a b : list byte) k, (k < length a + length b)%nat ->
  (length (firstn k (a ++ b)) < length a)%nat \/
  (exists j, firstn k (a ++ b) = a ++ firstn j b /\ (j < length b)%nat).
Proof.
  intros a b k H. destruct (Nat.lt_ge_cases k (length a)) as [L|L].
  - left. rewrite firstn_length, app_length. lia.
  - right. exists (k - length a)%nat. split; [|lia]. rewrite firstn_app. f_equal. apply firstn_all2. exact L.
Qed.

Theorem C31_truncated_answer : forall shift hs src o q a bytes k,
  servable shift hs -> full_reads o -> right_answer shift hs src o q a -> wire a bytes ->
  (k < length bytes)%nat ->
  client_one (Some (current_metadata shift hs)) q (firstn k bytes) = (SError EIo, []).
Proof.
  intros shift hs src o q a bytes k (Hs & Hh & Hm) F R W Hk.
  pose proof (pow_shift_bound shift Hs) as Hp.
  destruct k as [|k].
  { cbn [firstn]. destruct q; reflexivity. }
  assert (One : forall x : byte, bytes = [x] -> False) by (intros x ->; cbn in Hk; lia).
  destruct q as [| |i]; cbn in R.
  - subst a. cbn [wire] in W. subst bytes. cbn in Hk.
    destruct k as [|[|[|[|k]]]]; [reflexivity..|lia].
  - subst a. cbn [wire] in W. destruct W as (im & -> & L & B). cbn [firstn client_one].
    unfold client_metadata. rewrite cread_1. cbn [nth]. change (0 =? STATUS_OK) with true. cbn [negb].
    cbn [length] in Hk. rewrite app_length in Hk.
    destruct (firstn_short (le_bytes 8 (N.of_nat (length im))) im k ltac:(lia)) as [S|(j & -> & Hj)].
    + rewrite le_bytes_length in S. rewrite cread_short by exact S. reflexivity.
    + rewrite cread_app by apply le_bytes_length.
      rewrite le_val_le_bytes by (change (256 ^ N.of_nat 8) with 18446744073709551616; lia).
      replace (N.of_nat (length im) <? 512) with false by lia.
      replace (MAX_REMOTE_METADATA_SIZE <? N.of_nat (length im)) with false by (unfold MAX_REMOTE_METADATA_SIZE; lia).
      rewrite cread_short by (rewrite firstn_length; lia). reflexivity.
  - destruct R as [Hi R].
    assert (D : exists d, bytes = 0 :: le_bytes 8 (N.of_nat (length d)) ++ d /\ length d = N.to_nat (512 * 2 ^ shift)).
    { destruct F as [F1 F2]. inversion R; subst a; cbn [wire] in W; try (exfalso; eapply One; eassumption); eauto. }
    destruct D as (d & -> & Ld). cbn [firstn client_one]. unfold client_fetch_stripe. rewrite ss_current, cread_1.
    cbn [nth]. change (0 =? STATUS_OK) with true. cbn match.
    cbn [length] in Hk. rewrite app_length in Hk.
    destruct (firstn_short (le_bytes 8 (N.of_nat (length d))) d k ltac:(lia)) as [S|(j & -> & Hj)].
    + rewrite le_bytes_length in S. rewrite cread_short by exact S. reflexivity.
    + rewrite cread_app by apply le_bytes_length.
      rewrite le_val_le_bytes by (change (256 ^ N.of_nat 8) with 18446744073709551616; lia).
      replace (N.of_nat (length d) =? 512 * 2 ^ shift) with true by lia. cbn [negb].
      rewrite cread_short by (rewrite firstn_length; lia). reflexivity.
Qed.

(** A misbehaving server: on arbitrary bytes the client never panics; it returns a
    stripe only for status OK followed by exactly the expected length and that many
    bytes, and metadata only if it is complete, of acceptable size and valid; it
    accepts only protocol version 1. *)
Lemma bytes_8 : forall v x, bytes_ok v -> length v = 8%nat -> le_val v = x -> v = le_bytes 8 x.
Proof. intros v x B L <-. rewrite <- (le_bytes_le_val v B) at 1. now rewrite L. Qed.

Ltac inv_cread H a r E :=
  unfold cread in H at 1;
  match type of H with match ?e with _ => _ end = _ =>
    let x := fresh in destruct e as [x|] eqn:E; [destruct x as [a r]; apply read_exact_inv in E; destruct E as [E ?L]|discriminate H] end.

Lemma one_byte : forall a : list byte, length a = 1%nat -> a = [nth 0 a 0].
Proof. intros [|x [|]]; cbn; intros; congruence. Qed.

Theorem C31_client_accepts_only_valid : forall shift hs input, bytes_ok input -> shift <= 17 ->
  (forall d rest, client_fetch_stripe (Some (current_metadata shift hs)) input = COk d rest <->
     input = 0 :: le_bytes 8 (512 * 2 ^ shift) ++ d ++ rest /\ N.of_nat (length d) = 512 * 2 ^ shift) /\
  (forall m rest, client_metadata input = COk m rest <->
     exists image, input = 0 :: le_bytes 8 (N.of_nat (length image)) ++ image ++ rest /\
       512 <= N.of_nat (length image) <= 64 * 1024 * 1024 /\ from_bytes image = Ok m) /\
  (forall rest, client_hello input = COk tt rest <-> input = [0; 1; 0; 0; 0] ++ rest).
Proof.
  intros shift hs input B Hs. pose proof (pow_shift_bound shift Hs) as Hp. split; [|split].
  - intros d rest. unfold client_fetch_stripe. rewrite ss_current. split.
    + intros H. inv_cread H st r1 E1. rewrite (one_byte st L) in E1.
      destruct (nth 0 st 0 =? STATUS_OK) eqn:Eok;
        [|repeat match type of H with (if ?c then _ else _) = _ => destruct c end; discriminate].
      apply N.eqb_eq in Eok. rewrite Eok in E1. inv_cread H sz r2 E2.
      destruct (le_val sz =? 512 * 2 ^ shift) eqn:Esz; cbn [negb] in H; [|discriminate]. apply N.eqb_eq in Esz.
      inv_cread H dd r3 E3. injection H as -> ->. subst input r1 r2.
      apply bytes_ok_app in B as [_ B]. apply bytes_ok_app in B as [B _].
      rewrite (bytes_8 sz _ B ltac:(assumption) Esz). split; [reflexivity|]. lia.
    + intros [-> Hl]. rewrite cread_1. cbn [nth]. change (0 =? STATUS_OK) with true. cbn match.
      rewrite cread_app by apply le_bytes_length.
      rewrite le_val_le_bytes by (change (256 ^ N.of_nat 8) with 18446744073709551616; lia).
      rewrite N.eqb_refl. cbn [negb]. rewrite cread_app by lia. reflexivity.
  - intros m rest. unfold client_metadata. split.
    + intros H. inv_cread H st r1 E1. rewrite (one_byte st L) in E1.
      destruct (nth 0 st 0 =? STATUS_OK) eqn:Eok; cbn [negb] in H; [|discriminate]. apply N.eqb_eq in Eok.
      rewrite Eok in E1. inv_cread H sz r2 E2.
      destruct (le_val sz <? 512) eqn:E5; [discriminate|].
      destruct (MAX_REMOTE_METADATA_SIZE <? le_val sz) eqn:E6; [discriminate|].
      unfold MAX_REMOTE_METADATA_SIZE in E6.
      inv_cread H im r3 E3. destruct (from_bytes im) as [m'| |] eqn:Ef; try discriminate. injection H as -> ->.
      subst input r1 r2. apply bytes_ok_app in B as [_ B]. apply bytes_ok_app in B as [B _].
      exists im. rewrite (bytes_8 sz (N.of_nat (length im)) B) by (auto; lia).
      split; [reflexivity|]. split; [lia|exact Ef].
    + intros (im & -> & Hl & Ef). rewrite cread_1. cbn [nth]. change (0 =? STATUS_OK) with true. cbn [negb].
      rewrite cread_app by apply le_bytes_length.
      rewrite le_val_le_bytes by (change (256 ^ N.of_nat 8) with 18446744073709551616; lia).
      replace (N.of_nat (length im) <? 512) with false by lia.
      replace (MAX_REMOTE_METADATA_SIZE <? N.of_nat (length im)) with false by (unfold MAX_REMOTE_METADATA_SIZE; lia).
      rewrite cread_app by lia. rewrite Ef. reflexivity.
  - intros rest. unfold client_hello. split.
    + intros H. inv_cread H st r1 E1. rewrite (one_byte st L) in E1.
      destruct (nth 0 st 0 =? STATUS_INVALID_COMMAND); [discriminate|].
      destruct (nth 0 st 0 =? STATUS_OK) eqn:Eok; cbn [negb] in H; [|discriminate]. apply N.eqb_eq in Eok.
      rewrite Eok in E1. inv_cread H v r2 E2.
      destruct (le_val v =? PROTOCOL_VERSION) eqn:Ev; [|discriminate]. apply N.eqb_eq in Ev. injection H as ->.
      subst input r1. apply bytes_ok_app in B as [_ B]. apply bytes_ok_app in B as [B _].
      assert (v = [1; 0; 0; 0]) as ->; [|reflexivity].
      rewrite <- (le_bytes_le_val v B), L0, Ev. reflexivity.
    + intros ->. reflexivity.
Qed.

Theorem C31_no_panic : forall shift hs src os input md q, shift <= 17 ->
  handle_requests (mk_session (current_metadata shift hs) src) os input <> Panic /\
  fst (client_one md q input) <> SPanic.
Proof.
  intros shift hs src os input md q Hs. split.
  - revert input. induction os as [|o os IH]; intros input; [discriminate|]. cbn [handle_requests].
    assert (S : handle_single_request (mk_session (current_metadata shift hs) src) o input <> Panic).
    { unfold handle_single_request. destruct (read_exact 1 input) as [[op r]|]; [|discriminate].
      destruct (nth 0 op 0 =? HELLO_CMD); [discriminate|].
      destruct (nth 0 op 0 =? METADATA_CMD).
      { unfold handle_metadata. cbn [ss_meta].
        set (sz := metadata_size (current_metadata shift hs)).
        assert (Hsz : sz = (512 * (1 + (length hs + 507) / 508))%nat).
        { unfold sz, metadata_size, stripe_header_sector_count, div_ceil, current_metadata, SECTOR_SIZE, STRIPE_HEADERS_PER_SECTOR.
          cbn [md_headers]. change (508 - 1)%nat with 507%nat. lia. }
        destruct (N.lt_ge_cases (N.of_nat (length hs)) (2 ^ 32)) as [Hh|Hh].
        - destruct (C01_metadata_roundtrip shift hs (repeat 0 sz) Hs Hh) as (b & W & _).
          { rewrite repeat_length, Hsz, Nat.mul_comm. apply Nat.mod_mul. lia. }
          { rewrite repeat_length, Hsz. apply le_n. }
          rewrite W. discriminate.
        - pose proof (C01_metadata_too_small shift hs (repeat 0 sz) (or_intror Hh)) as W.
          destruct (write_to_buf (current_metadata shift hs) (repeat 0 sz)); discriminate. }
      destruct (nth 0 op 0 =? READ_STRIPE_CMD); [|discriminate].
      destruct (read_exact 8 r) as [[idb r']|]; [|discriminate].
      destruct (read_stripe_answer shift hs src o (le_val idb) Hs) as (a & by_ & _ & E & _). rewrite E. discriminate. }
    destruct (handle_single_request (mk_session (current_metadata shift hs) src) o input) as [[b [rest|]]| |] eqn:E;
      cbn [bindr fst snd]; try congruence.
    specialize (IH rest). destruct (handle_requests _ os rest); cbn [bindr]; congruence.
  - destruct q as [| |i]; cbn [client_one].
    + unfold client_hello, cread. destruct (read_exact 1 input) as [[a r]|]; [|discriminate].
      destruct (nth 0 a 0 =? STATUS_INVALID_COMMAND); [discriminate|].
      destruct (nth 0 a 0 =? STATUS_OK); cbn [negb]; [|discriminate].
      destruct (read_exact 4 r) as [[b r']|]; [|discriminate].
      destruct (le_val b =? PROTOCOL_VERSION); discriminate.
    + unfold client_metadata, cread. destruct (read_exact 1 input) as [[a r]|]; [|discriminate].
      destruct (nth 0 a 0 =? STATUS_OK); cbn [negb]; [|discriminate].
      destruct (read_exact 8 r) as [[b r']|]; [|discriminate].
      destruct (le_val b <? 512); [discriminate|]. destruct (MAX_REMOTE_METADATA_SIZE <? le_val b); [discriminate|].
      destruct (read_exact (N.to_nat (le_val b)) r') as [[c r'']|]; [|discriminate].
      pose proof (C02_load_total c). destruct (from_bytes c); [discriminate|discriminate|congruence].
    + unfold client_fetch_stripe, cread. destruct md as [m|]; [|discriminate].
      destruct (read_exact 1 input) as [[a r]|]; [|discriminate].
      destruct (nth 0 a 0 =? STATUS_OK).
      { destruct (read_exact 8 r) as [[b r']|]; [|discriminate].
        destruct (negb (le_val b =? MetadataModel.stripe_size m)); [discriminate|].
        destruct (read_exact (N.to_nat (le_val b)) r') as [[c r'']|]; discriminate. }
      destruct (nth 0 a 0 =? STATUS_INVALID_STRIPE); [discriminate|].
      destruct ((nth 0 a 0 =? STATUS_NO_DATA) || (nth 0 a 0 =? STATUS_NOT_FETCHED)); [discriminate|].
      destruct (nth 0 a 0 =? STATUS_SERVER_ERROR); discriminate.
Qed.

(** An opcode the server does not know is refused and the session stays in sync;
    a client that says hello to a server without that command gives up. *)
Theorem C31_unknown_command : forall ss o op more, 2 < op ->
  handle_single_request ss o (op :: more) = Ok ([254], Some more) /\
  client_hello [254] = CErr EProtocol [].
Proof.
  intros ss o op more H. split; [|reflexivity]. unfold handle_single_request. rewrite read_exact_1. cbn [nth].
  unfold HELLO_CMD, METADATA_CMD, READ_STRIPE_CMD.
  replace (op =? 2) with false by lia. replace (op =? 0) with false by lia. replace (op =? 1) with false by lia.
  reflexivity.
Qed.

(** ** C32 *)

(** The server's reply to a request for stripe [i] is exactly the one the stripe's
    header calls for. *)
Theorem C32_reply_by_header : forall shift hs src o i bytes go,
  shift <= 17 -> full_reads o ->
  handle_read_stripe (mk_session (current_metadata shift hs) src) o i = Ok (bytes, go) ->
  exists a, stripe_answer shift hs src o i a /\ wire a bytes /\ (go = false <-> a = AFailed) /\
    forall a', stripe_answer shift hs src o i a' -> a' = a.
Proof.
  intros shift hs src o i bytes go Hs F H.
  destruct (read_stripe_answer shift hs src o i Hs) as (a & b & A & E & W).
  rewrite E in H. injection H as -> <-. exists a. split; auto. split; auto. split.
  - destruct a; cbn; split; congruence.
  - intros a' A'. eapply stripe_answer_fun; eauto.
Qed.

(** A stripe that is still in the source only is never read from the local disk,
    and one that is not is never read from the source. *)
Theorem C32_right_medium : forall shift hs src dev dev' s s' i h,
  nth_error hs (N.to_nat i) = Some h -> shift <= 17 ->
  (in_source_only h = true ->
     handle_read_stripe (mk_session (current_metadata shift hs) src) (mk_io dev s) i =
     handle_read_stripe (mk_session (current_metadata shift hs) src) (mk_io dev' s) i) /\
  (in_source_only h = false ->
     handle_read_stripe (mk_session (current_metadata shift hs) src) (mk_io dev s) i =
     handle_read_stripe (mk_session (current_metadata shift hs) src) (mk_io dev s') i).
Proof.
  intros shift hs src dev dev' s s' i h Hh Hs.
  assert (Hl : (N.to_nat i < length hs)%nat) by (apply nth_error_Some; congruence).
  assert (Hx : index hs (N.to_nat i) = Ok h).
  { rewrite (index_ok _ _ 0) by auto. f_equal. now apply nth_error_nth. }
  unfold handle_read_stripe, stripe_count. cbn [ss_meta ss_source].
  unfold stripe_not_fetched, stripe_has_data.
  change (md_headers (current_metadata shift hs)) with hs. rewrite !Hx. cbn [bindr].
  rewrite flag_fetched, flag_has_source, flag_written. fold (in_source_only h).
  replace (N.of_nat (length hs) <=? i) with false by lia. cbn [io_dev io_src].
  split; intros ->; reflexivity.
Qed.

(** What a client gets.  [local] and [image] are the contents of the server's disk
    and of the image it is filled from (irrelevant if everything is fetched), and
    stripes that were never written and have no source data hold zeros: then every
    stripe the client believes to have data is answered with the device's logical
    contents, and the logical contents of every other stripe are zeros. *)
Definition zeros (shift : N) : list byte := repeat 0 (N.to_nat (512 * 2 ^ shift)).

Theorem C32_remote_contents : forall shift hs src local image o,
  honest shift local image o ->
  (src = true \/ forall h, In h hs -> in_source_only h = false) ->
  (forall i h, nth_error hs (N.to_nat i) = Some h -> written h = false -> has_source h = false ->
     local i = zeros shift) ->
  forall i, i < N.of_nat (length hs) ->
    (remote_has_stripe hs (N.to_nat i) = Ok true /\ stripe_answer shift hs src o i (AData (logical hs local image i))) \/
    (remote_has_stripe hs (N.to_nat i) = Ok false /\ stripe_answer shift hs src o i ANoData /\
     logical hs local image i = zeros shift).
Proof.
  intros shift hs src local image o [Hd Hi] Hsrc Hz i Hlt.
  destruct (nth_error hs (N.to_nat i)) as [h|] eqn:Eh; [|apply nth_error_None in Eh; lia].
  assert (Hin : In h hs) by (eapply nth_error_In; eauto).
  unfold remote_has_stripe. replace (length hs <=? N.to_nat i)%nat with false by lia.
  assert (Hx : index hs (N.to_nat i) = Ok h).
  { rewrite (index_ok _ _ 0) by lia. f_equal. now apply nth_error_nth. }
  rewrite Hx. cbn [bindr]. rewrite flag_written, flag_has_source.
  unfold logical. rewrite Eh. destruct (in_source_only h) eqn:Eo.
  - left. assert (has_source h = true) as -> by (unfold in_source_only in Eo; apply andb_true_iff in Eo; tauto).
    rewrite orb_true_r. split; [reflexivity|].
    destruct Hsrc as [->|Hs]; [|rewrite (Hs h Hin) in Eo; discriminate].
    eapply sa_source; eauto.
  - destruct (written h || has_source h) eqn:Ew.
    + left. split; [reflexivity|]. eapply sa_local; eauto. unfold data_local. rewrite Eo, Ew. reflexivity.
    + right. apply orb_false_iff in Ew as [W S]. split; [reflexivity|]. split; [eapply sa_no_data; eauto|].
      eapply Hz; eauto.
Qed.

(** On a device that does not track writes the server marks the stripes without
    source as written: this does not change the logical contents, and then no
    assumption about unwritten stripes is needed. *)
Lemma lor_written : forall h, N.land h FLAG_HAS_SOURCE = 0 ->
  written (N.lor h FLAG_WRITTEN) = true /\ has_source (N.lor h FLAG_WRITTEN) = false.
Proof.
  intros h H. unfold written, has_source. rewrite !N.lor_spec. split; [cbn; apply orb_true_r|].
  change (N.testbit FLAG_WRITTEN 2) with false. rewrite orb_false_r.
  pose proof (flag_testbit h 2) as E. change (2 ^ 2) with FLAG_HAS_SOURCE in E. rewrite H in E. now rewrite <- E.
Qed.

Theorem C32_untracked : forall shift hs src local image o,
  let hs' := md_headers (mark_no_source_stripes_written (current_metadata shift hs)) in
  honest shift local image o ->
  (src = true \/ forall h, In h hs -> in_source_only h = false) ->
  length hs' = length hs /\
  forall i, i < N.of_nat (length hs) ->
    remote_has_stripe hs' (N.to_nat i) = Ok true /\
    stripe_answer shift hs' src o i (AData (logical hs local image i)).
Proof.
  intros shift hs src local image o hs' Ho Hsrc.
  unfold hs', mark_no_source_stripes_written. cbn [md_headers current_metadata]. clear hs'.
  set (f := fun h => if N.land h FLAG_HAS_SOURCE =? 0 then N.lor h FLAG_WRITTEN else h).
  assert (HS : forall h, has_source h = negb (N.land h FLAG_HAS_SOURCE =? 0)) by (intros h; symmetry; exact (flag_testbit h 2)).
  assert (Fo : forall h, in_source_only (f h) = in_source_only h).
  { intros h. unfold f. destruct (N.land h FLAG_HAS_SOURCE =? 0) eqn:E; auto. apply N.eqb_eq in E.
    unfold in_source_only. destruct (lor_written h E) as [_ ->]. rewrite HS, E. reflexivity. }
  assert (Fw : forall h, written (f h) || has_source (f h) = true).
  { intros h. unfold f. destruct (N.land h FLAG_HAS_SOURCE =? 0) eqn:E.
    - apply N.eqb_eq in E. destruct (lor_written h E) as [-> _]. reflexivity.
    - rewrite HS, E. apply orb_true_r. }
  split; [apply map_length|]. intros i Hi.
  destruct (C32_remote_contents shift (map f hs) src local image o Ho) with (i := i) as [(A & B)|(A & B & C)].
  - destruct Hsrc as [->|Hs]; [left; reflexivity|right]. intros h Hin. apply in_map_iff in Hin as (h0 & <- & Hin).
    rewrite Fo. auto.
  - intros j h Hj W S. rewrite nth_error_map in Hj. destruct (nth_error hs (N.to_nat j)) as [h0|]; [|discriminate].
    injection Hj as <-. specialize (Fw h0). rewrite W, S in Fw. discriminate.
  - rewrite map_length. exact Hi.
  - split; [exact A|]. replace (logical hs local image i) with (logical (map f hs) local image i); [exact B|].
    unfold logical. rewrite nth_error_map. destruct (nth_error hs (N.to_nat i)); cbn [option_map]; [|reflexivity]. now rewrite Fo.
  - exfalso. inversion B as [| | | |h H1 H2 H3| |]. rewrite nth_error_map in H1.
    destruct (nth_error hs (N.to_nat i)) as [h0|]; [|discriminate]. injection H1 as <-.
    specialize (Fw h0). rewrite H2, H3 in Fw. discriminate.
Qed.

(** Starting the server: a device with unfetched stripes and no configured source
    is refused; otherwise sessions have a source, so no stripe is ever answered NOT
    FETCHED; a device without metadata is served from its local disk entirely. *)
Theorem C32_prepare : forall shift hs tracked source_configured sectors,
  (prepare_stripe_server (Some (current_metadata shift hs)) tracked source_configured sectors = Err 1 <->
     source_configured = false /\ exists h, In h hs /\ in_source_only h = true) /\
  (forall ss, prepare_stripe_server (Some (current_metadata shift hs)) tracked source_configured sectors = Ok ss ->
     ss_source ss = true /\
     ss_meta ss = (if tracked then current_metadata shift hs
                   else mark_no_source_stripes_written (current_metadata shift hs)) /\
     forall o i, ~ stripe_answer shift (md_headers (ss_meta ss)) true o i ANotFetched) /\
  (exists hs0, prepare_stripe_server None tracked source_configured sectors
      = Ok (mk_session (current_metadata 11 hs0) false) /\
     (2048 * (length hs0 - 1) < sectors <= 2048 * length hs0 \/ sectors = 0 /\ hs0 = [])%nat /\
     forall h, In h hs0 -> data_local h = true).
Proof.
  intros shift hs tracked sc sectors.
  assert (HF : has_fetched_all_stripes (current_metadata shift hs) = false <-> exists h, In h hs /\ in_source_only h = true).
  { unfold has_fetched_all_stripes. cbn [md_headers current_metadata].
    assert (P : forall h, (N.land h FLAG_HAS_SOURCE =? 0) || negb (N.land h FLAG_FETCHED =? 0) = negb (in_source_only h)).
    { intros h. unfold in_source_only. rewrite <- flag_has_source, <- flag_fetched. unfold flag.
      destruct (N.land h FLAG_HAS_SOURCE =? 0), (N.land h FLAG_FETCHED =? 0); reflexivity. }
    rewrite <- not_true_iff_false, forallb_forall. split.
    - intros H. destruct (existsb in_source_only hs) eqn:E; [apply existsb_exists in E; exact E|].
      exfalso. apply H. intros h Hin. rewrite P. apply negb_true_iff.
      apply not_true_iff_false. intros C. apply not_true_iff_false in E. apply E. apply existsb_exists. eauto.
    - intros (h & Hin & Hh) H. specialize (H h Hin). rewrite P, Hh in H. discriminate. }
  split; [|split].
  - cbn [prepare_stripe_server]. rewrite <- HF.
    destruct (has_fetched_all_stripes (current_metadata shift hs)), sc; cbn [negb andb]; split; try (intros; discriminate);
      try (intros []; discriminate); auto.
  - intros ss. cbn [prepare_stripe_server].
    destruct (negb (has_fetched_all_stripes (current_metadata shift hs)) && negb sc); [discriminate|].
    intros [= <-]. cbn [ss_source ss_meta]. split; auto. split; auto. intros o i A. inversion A. discriminate.
  - cbn [prepare_stripe_server]. set (n := div_ceil sectors (Nat.pow 2 (N.to_nat DEFAULT_SHIFT))).
    exists (map (fun h => N.lor h (N.lor FLAG_WRITTEN FLAG_FETCHED)) (md_headers (metadata_new DEFAULT_SHIFT n n))).
    split; [reflexivity|]. split.
    + rewrite map_length. unfold metadata_new. cbn [md_headers]. rewrite map_length, seq_length.
      unfold n, div_ceil. change (Nat.pow 2 (N.to_nat DEFAULT_SHIFT)) with 2048%nat. clear.
      destruct sectors as [|s]; [right; split; reflexivity|left].
      change (2048 - 1)%nat with 2047%nat. lia.
    + intros h Hin. apply in_map_iff in Hin as (h0 & <- & Hin). unfold metadata_new in Hin. cbn [md_headers] in Hin.
      apply in_map_iff in Hin as (k & <- & _). destruct (k <? n)%nat; reflexivity.
Qed.

(** The size a remote source reports covers every stripe with data, and no more:
    it ends at the last stripe with data. *)
Lemma rposition_spec : forall A (p : A -> bool) l,
  match rposition p l with
  | Some k => (k < length l)%nat /\ (exists x, nth_error l k = Some x /\ p x = true) /\
              forall j x, (k < j)%nat -> nth_error l j = Some x -> p x = false
  | None => forall j x, nth_error l j = Some x -> p x = false
  end.
Proof.
  intros A p l. induction l as [|x l IH]; cbn.
  - intros [|j] y H; discriminate.
  - destruct (rposition p l) as [k|].
    + destruct IH as (L & (y & Y1 & Y2) & R). split; [lia|]. split; [exists y; auto|].
      intros [|j] z Hj Hz; [lia|]. apply (R j z); auto; lia.
    + destruct (p x) eqn:E.
      * split; [lia|]. split; [exists x; auto|]. intros [|j] z Hj Hz; [lia|]. apply (IH j z Hz).
      * intros [|j] z Hz; cbn in Hz; [congruence|]. apply (IH j z Hz).
Qed.

Theorem C32_remote_size : forall shift hs n, shift <= 17 -> N.of_nat (length hs) < 2 ^ 32 ->
  remote_sector_count (current_metadata shift hs) = Ok n ->
  (forall i, remote_has_stripe hs i = Ok true -> (N.of_nat i + 1) * 2 ^ shift <= n) /\
  (n = 0 \/ exists i, remote_has_stripe hs i = Ok true /\ n = (N.of_nat i + 1) * 2 ^ shift).
Proof.
  intros shift hs n Hs Hh H. unfold remote_sector_count in H. rewrite ssc_current in H.
  change (md_headers (current_metadata shift hs)) with hs in H.
  set (p := fun h => negb (N.land h (N.lor FLAG_WRITTEN FLAG_HAS_SOURCE) =? 0)) in *.
  assert (P : forall h, p h = flag FLAG_WRITTEN h || flag FLAG_HAS_SOURCE h).
  { intros h. unfold p, flag. rewrite N.land_lor_distr_r.
    destruct (N.land h FLAG_WRITTEN =? 0) eqn:A, (N.land h FLAG_HAS_SOURCE =? 0) eqn:B; cbn [negb orb].
    - apply N.eqb_eq in A, B. rewrite A, B. reflexivity.
    - apply negb_true_iff, N.eqb_neq. intros C. apply N.lor_eq_0_iff in C. apply N.eqb_neq in B. tauto.
    - apply negb_true_iff, N.eqb_neq. intros C. apply N.lor_eq_0_iff in C. apply N.eqb_neq in A. tauto.
    - apply negb_true_iff, N.eqb_neq. intros C. apply N.lor_eq_0_iff in C. apply N.eqb_neq in A. tauto. }
  assert (R : forall i, remote_has_stripe hs i = Ok true <-> exists h, nth_error hs i = Some h /\ p h = true).
  { intros i. unfold remote_has_stripe. destruct (length hs <=? i)%nat eqn:E.
    - apply Nat.leb_le in E. split; [discriminate|]. intros (h & N1 & _). apply nth_error_None in E. congruence.
    - apply Nat.leb_gt in E. rewrite (index_ok _ _ 0) by auto. cbn [bindr]. rewrite <- P. split.
      + intros X. apply Ok_inj in X. exists (nth i hs 0). split; auto. apply nth_error_nth'. exact E.
      + intros (h & N1 & Ph). rewrite (nth_error_nth _ _ _ N1), Ph. reflexivity. }
  pose proof (rposition_spec _ p hs) as S. destruct (rposition p hs) as [k|].
  - destruct S as (_ & K & A). destruct ((N.of_nat k + 1) * 2 ^ shift <? 2 ^ 64); [|discriminate].
    apply Ok_inj in H. subst n. split.
    + intros i Hi. apply R in Hi as (h & N1 & Ph).
      assert (i <= k)%nat by (destruct (Nat.le_gt_cases i k); auto; rewrite (A i h) in Ph; auto; discriminate).
      apply N.mul_le_mono_r. lia.
    + right. exists k. split; auto. apply R. exact K.
  - split.
    + intros i Hi. apply R in Hi as (h & N1 & Ph). rewrite (S i h N1) in Ph. discriminate.
    + left. destruct (0 * 2 ^ shift <? 2 ^ 64); [|discriminate]. apply Ok_inj in H. lia.
Qed.

(** ** C34 *)

(** Old-format metadata: byte 13 is the stripe shift, byte [512+i] the header of
    stripe [i], one stripe per [2^shift] sectors of the data device. *)
Definition legacy_image (buf : list byte) (sectors : N) (shift : N) (n : nat) : Prop :=
  (512 + n <= length buf)%nat /\ nth 13 buf 0 = shift /\ shift <= 16 /\
  (sectors <= N.of_nat n * 2 ^ shift /\ (N.of_nat n * 2 ^ shift < sectors + 2 ^ shift)).

Theorem C34_translation : forall buf sectors m,
  translate_v0_2_metadata buf sectors = Ok m <->
  exists shift n, legacy_image buf sectors shift n /\
    m = current_metadata shift (map (fun h => if h =? 0 then 4 else 2) (firstn n (skipn 512 buf))).
Proof.
  intros buf sectors m. unfold translate_v0_2_metadata.
  destruct (length buf <? 512)%nat eqn:E1.
  { apply Nat.ltb_lt in E1. split; [discriminate|]. intros (s & n & (L & _) & _). lia. }
  apply Nat.ltb_ge in E1. rewrite (index_ok _ _ 0) by lia. cbn [bindr]. set (shift := nth 13 buf 0).
  destruct (MAX_LEGACY_SHIFT <? shift) eqn:E2.
  { unfold MAX_LEGACY_SHIFT in E2. split; [discriminate|]. intros (s & n & (L & A & B & _) & _). fold shift in A. lia. }
  unfold MAX_LEGACY_SHIFT in E2. apply N.ltb_ge in E2.
  assert (Hp : 2 ^ shift <> 0) by (apply N.pow_nonzero; lia).
  set (p := 2 ^ shift) in *. set (c := (sectors + (p - 1)) / p) in *.
  assert (Hc : sectors <= c * p /\ c * p < sectors + p).
  { unfold c. pose proof (N.div_mod (sectors + (p - 1)) p Hp). pose proof (N.mod_lt (sectors + (p - 1)) p Hp).
    rewrite (N.mul_comm _ p). lia. }
  assert (Uc : forall k, sectors <= k * p -> k * p < sectors + p -> k = c).
  { intros k K1 K2. destruct (N.lt_trichotomy k c) as [Q|[Q|Q]]; auto; exfalso; nia. }
  destruct (N.of_nat (length buf - 512) <? c) eqn:E3.
  { split; [discriminate|]. intros (s & n & (L & A & B & C1 & C2) & _). fold shift in A. subst s.
    fold p in C1, C2. pose proof (Uc _ C1 C2). lia. }
  apply N.ltb_ge in E3.
  rewrite slice_ok by lia. cbn [bindr]. replace (512 + N.to_nat c - 512)%nat with (N.to_nat c) by lia.
  split.
  - intros H. apply Ok_inj in H. exists shift, (N.to_nat c). split; [|symmetry; exact H].
    unfold legacy_image. fold shift. fold p. rewrite N2Nat.id. repeat split; try lia.
  - intros (s & n & (L & A & B & C1 & C2) & ->). fold shift in A. subst s. fold p in C1, C2.
    assert (n = N.to_nat c) as -> by (pose proof (Uc _ C1 C2); lia). reflexivity.
Qed.

(** What the translated headers mean. *)
Theorem C34_headers : forall buf sectors shift n, legacy_image buf sectors shift n ->
  exists hs, translate_v0_2_metadata buf sectors = Ok (current_metadata shift hs) /\ length hs = n /\
    forall i h, nth_error hs i = Some h ->
      (nth (512 + i) buf 0 <> 0 <-> data_local h = true) /\
      (nth (512 + i) buf 0 = 0 <-> in_source_only h = true).
Proof.
  intros buf sectors shift n H.
  exists (map (fun h => if h =? 0 then 4 else 2) (firstn n (skipn 512 buf))). split; [|split].
  - apply C34_translation. eauto.
  - destruct H as (L & _). rewrite map_length, firstn_length, skipn_length. lia.
  - intros i h Hi. rewrite nth_error_map in Hi.
    destruct (nth_error (firstn n (skipn 512 buf)) i) as [x|] eqn:Ex; [|discriminate]. injection Hi as <-.
    assert (nth (512 + i) buf 0 = x) as ->.
    { assert (Hn : (i < n)%nat).
      { assert (i < length (firstn n (skipn 512 buf)))%nat by (apply nth_error_Some; congruence).
        rewrite firstn_length in H0. lia. }
      rewrite <- MetadataProofs.nth_skipn. apply nth_error_nth with (d := 0) in Ex. rewrite <- Ex. symmetry.
      rewrite <- (firstn_skipn n (skipn 512 buf)) at 2. rewrite app_nth1; auto.
      destruct H as (L & _). rewrite firstn_length, skipn_length. lia. }
    destruct (x =? 0) eqn:E.
    + apply N.eqb_eq in E. subst x. split; split; intros; try discriminate; try congruence; reflexivity.
    + apply N.eqb_neq in E. split; split; intros; try discriminate; try congruence; reflexivity.
Qed.

(** Loading for serving: old metadata (the magic followed by version 0) is
    translated, anything else is loaded as current metadata; nothing panics. *)
Theorem C34_load : forall buf sectors,
  load_metadata_for_serving buf sectors <> Panic /\
  ((exists rest, buf = UBI_MAGIC ++ [0; 0] ++ rest) ->
     load_metadata_for_serving buf sectors = translate_v0_2_metadata buf sectors) /\
  (~ (exists rest, buf = UBI_MAGIC ++ [0; 0] ++ rest) ->
     load_metadata_for_serving buf sectors = from_bytes buf).
Proof.
  intros buf sectors.
  assert (E : is_legacy_v0_2 buf = true <-> exists rest, buf = UBI_MAGIC ++ [0; 0] ++ rest).
  { unfold is_legacy_v0_2. rewrite !andb_true_iff, Nat.leb_le, bytes_eqb_spec, !N.eqb_eq. split.
    - intros [[[L F] A] B]. exists (skipn 11 buf).
      rewrite <- (firstn_skipn 9 buf) at 1. rewrite F. f_equal.
      assert (S : skipn 9 buf = nth 9 buf 0 :: nth 10 buf 0 :: skipn 11 buf).
      { clear - L. do 11 (destruct buf as [|? buf]; [cbn in L; lia|]). reflexivity. }
      rewrite S, A, B. reflexivity.
    - intros (rest & ->). split; [split; [split|]|]; try reflexivity.
      rewrite app_length. change (length UBI_MAGIC) with 9%nat. cbn [length app]. lia. }
  unfold load_metadata_for_serving. split; [|split].
  - destruct (is_legacy_v0_2 buf); [|apply C02_load_total].
    unfold translate_v0_2_metadata. destruct (length buf <? 512)%nat eqn:E1; [discriminate|].
    apply Nat.ltb_ge in E1. rewrite (index_ok _ _ 0) by lia. cbn [bindr].
    destruct (MAX_LEGACY_SHIFT <? nth 13 buf 0); [discriminate|].
    destruct (N.of_nat (length buf - 512) <? (sectors + (2 ^ nth 13 buf 0 - 1)) / 2 ^ nth 13 buf 0) eqn:E3; [discriminate|].
    apply N.ltb_ge in E3. rewrite slice_ok by lia. discriminate.
  - intros H. apply E in H. rewrite H. reflexivity.
  - intros H. destruct (is_legacy_v0_2 buf); [exfalso; apply H, E; reflexivity|reflexivity].
Qed.

(** What a legacy server answers for a stripe whose data is only in the image and
    that begins inside the image: the image's bytes at that place, with zeros behind
    the end of the image. *)
Theorem C34_image_served : forall shift hs dev img i h sectors,
  N.of_nat (length img) = 512 * sectors -> i * 2 ^ shift < sectors ->
  nth_error hs (N.to_nat i) = Some h -> in_source_only h = true ->
  exists d, stripe_answer shift hs true (mk_io dev (image_source img (2 ^ shift))) i (AData d) /\
    N.of_nat (length d) = 512 * 2 ^ shift /\
    forall j, (j < length d)%nat -> nth j d 0 = nth (N.to_nat (512 * (i * 2 ^ shift)) + j) img 0.
Proof.
  intros shift hs dev img i h sectors L Hi Hh Hs. set (p := 2 ^ shift) in *.
  set (start := i * p) in *. set (n := N.min p (sectors - start)).
  assert (E : bdev_source_request (N.of_nat (length img) / 512) p i = Ok n).
  { unfold bdev_source_request. rewrite L, N.mul_comm, N.div_mul by discriminate. fold start.
    destruct (sectors <=? start) eqn:E; [apply N.leb_le in E; lia|reflexivity]. }
  set (a := N.to_nat (512 * start)). set (b := N.to_nat (512 * (start + n))).
  assert (Hn : n <= p /\ start + n <= sectors /\ (n = p \/ start + n = sectors)) by (unfold n; lia).
  set (d := firstn (b - a) (skipn a img)).
  assert (Ld : length d = (b - a)%nat) by (unfold d; rewrite firstn_length, skipn_length; lia).
  exists (d ++ repeat 0 (N.to_nat (512 * p) - length d)). split; [|split].
  - apply sa_source with (h := h); auto. cbn [io_src]. fold p. unfold image_source. rewrite E.
    fold start. fold a. fold b. rewrite slice_ok by lia. fold d.
    replace (length d <=? N.to_nat (512 * p))%nat with true; [reflexivity|]. symmetry. apply Nat.leb_le. lia.
  - rewrite app_length, repeat_length. lia.
  - intros j Hj. rewrite app_length, repeat_length in Hj. fold a. destruct (Nat.lt_ge_cases j (length d)) as [Q|Q].
    + rewrite app_nth1 by exact Q. unfold d. rewrite nth_firstn by lia. apply MetadataProofs.nth_skipn.
    + rewrite app_nth2 by exact Q. rewrite nth_repeat. symmetry. apply nth_overflow. lia.
Qed.

(** A volume that is larger than its image.  Old-format metadata does not say where
    the image ends: a stripe behind its end that was never written becomes "still in
    the source", and asking the image for it is an error, which ends the session:
    such a stripe cannot be migrated, although its contents are known to be zeros.
    (Image of 4 sectors, device of 6, stripes of 2.) *)
Definition image_io (image_sectors stripe_sectors : N) : io :=
  mk_io (fun _ _ len => Some (repeat 7 len))
        (fun i len => match bdev_source_request image_sectors stripe_sectors i with
                      | Ok n => Some (repeat 9 len) | _ => None end).
Definition legacy_buf : list byte := UBI_MAGIC ++ [0; 0; 0; 0; 1] ++ repeat 0 498 ++ [1; 0; 0].

Theorem C34_refuted_beyond_image :
  exists buf device_sectors image_sectors hs,
    legacy_image buf device_sectors 1 3 /\
    load_metadata_for_serving buf device_sectors = Ok (current_metadata 1 hs) /\
    image_sectors = 2 * 2 ^ 1 /\
    remote_has_stripe hs 2 = Ok true /\
    stripe_answer 1 hs true (image_io image_sectors 2) 1 (AData (repeat 9 1024)) /\
    stripe_answer 1 hs true (image_io image_sectors 2) 2 AFailed.
Proof.
  exists legacy_buf, 6, 4, [2; 4; 4]. split; [|split; [|split; [|split; [|split]]]].
  - unfold legacy_image. split; [apply Nat.leb_le; vm_compute; reflexivity|]. split; [vm_compute; reflexivity|].
    cbn. lia.
  - vm_compute. reflexivity.
  - reflexivity.
  - reflexivity.
  - eapply sa_source with (h := 4); reflexivity.
  - eapply sa_source_failed with (h := 4); reflexivity.
Qed.

(** ** Concrete cases *)
Definition ex_hs : list byte := [2; 4; 0; 5; 6].
Definition ex_io : io :=
  mk_io (fun s n len => Some (repeat (s mod 256) len)) (fun i len => Some (repeat (100 + i) len)).
Lemma ex_io_full : full_reads ex_io.
Proof. split; cbn; intros; repeat match goal with H : Some _ = Some _ |- _ => injection H as <- end; apply repeat_length. Qed.

Definition ex_qs : list request := [RHello; RMetadata; RRead 0; RRead 1; RRead 2; RRead 3; RRead 4; RRead 5].
Definition ex_ans : list answer :=
  [AHello; AMetadata 1 ex_hs; AData (repeat 0 1024); AData (repeat 101 1024); ANoData;
   AData (repeat 6 1024); AData (repeat 104 1024); AInvalid].

Example C31_nonvacuous : servable 1 ex_hs /\ answered 1 ex_hs true ex_qs (repeat ex_io 8) ex_ans.
Proof.
  split; [unfold servable; cbn; lia|].
  unfold ex_qs, ex_ans. cbn [repeat answered].
  repeat match goal with
  | |- _ /\ _ => split
  | |- full_reads _ => apply ex_io_full
  | |- _ <> AFailed => discriminate
  | |- True => exact Logic.I
  end; cbn [right_answer]; try reflexivity; (split; [reflexivity|]).
  - eapply sa_local with (h := 2); reflexivity.
  - eapply sa_source with (h := 4); reflexivity.
  - eapply sa_no_data with (h := 0); reflexivity.
  - eapply sa_local with (h := 5); reflexivity.
  - eapply sa_source with (h := 6); reflexivity.
  - apply sa_invalid. cbn. lia.
Qed.
(** ... and the same session run in the model. *)
Example C31_session_runs :
  match handle_requests (mk_session (current_metadata 1 ex_hs) true) (repeat ex_io 8)
          (concat (map encode_request ex_qs)) with
  | Ok (out, Some []) =>
      client_all (Some (current_metadata 1 ex_hs)) ex_qs out = (map seen_of ex_ans, [])
  | _ => False
  end.
Proof. vm_compute. reflexivity. Qed.

Example C32_nonvacuous :
  let local := fun i => if i =? 2 then zeros 1 else repeat (i + 1) 1024 in
  let image := fun i => repeat (50 + i) 1024 in
  let o := mk_io (fun s n len => Some (local (s / 2))) (fun i len => Some (image i)) in
  honest 1 local image o /\
  (forall i h, nth_error ex_hs (N.to_nat i) = Some h -> written h = false -> has_source h = false -> local i = zeros 1) /\
  remote_has_stripe ex_hs 2 = Ok false /\ remote_has_stripe ex_hs 1 = Ok true /\
  logical ex_hs local image 1 = repeat 51 1024 /\ logical ex_hs local image 3 = repeat 4 1024.
Proof.
  intros local image o. split; [|split; [|split; [|split; [|split]]]]; try reflexivity.
  - split; intros i; unfold o; cbn [io_dev io_src]; [|reflexivity].
    change (2 ^ 1) with 2. now rewrite N.div_mul by lia.
  - intros i h Hi W S. unfold local. destruct (i =? 2) eqn:E; [reflexivity|exfalso].
    apply N.eqb_neq in E. unfold ex_hs in Hi.
    destruct (N.to_nat i) as [|[|[|[|[|k]]]]] eqn:Ek; cbn in Hi; try (injection Hi as <-; discriminate); [lia|].
    destruct k; discriminate.
Qed.

(** A stripe of two sectors of which the image of 5 sectors has only one. *)
Example C34_image_nonvacuous :
  exists d, stripe_answer 1 [2; 4; 4] true (mk_io (fun _ _ _ => None) (image_source (repeat 9 2560) 2)) 2 (AData d) /\
    d = repeat 9 512 ++ repeat 0 512.
Proof.
  eexists. split; [|reflexivity]. apply sa_source with (h := 4); try reflexivity.
Qed.

Example C34_nonvacuous : legacy_image legacy_buf 6 1 3 /\
  exists hs, load_metadata_for_serving legacy_buf 6 = Ok (current_metadata 1 hs) /\ hs = [2; 4; 4].
Proof.
  split; [|eexists; split; vm_compute; reflexivity].
  unfold legacy_image. split; [apply Nat.leb_le; vm_compute; reflexivity|]. split; [vm_compute; reflexivity|].
  cbn. lia.
Qed.

Print Assumptions C31_session_in_sync.
Print Assumptions C31_failed_read_ends_session.
Print Assumptions C31_truncated_answer.
Print Assumptions C31_client_accepts_only_valid.
Print Assumptions C31_no_panic.
Print Assumptions C31_unknown_command.
Print Assumptions C32_reply_by_header.
Print Assumptions C32_right_medium.
Print Assumptions C32_remote_contents.
Print Assumptions C32_untracked.
Print Assumptions C32_prepare.
Print Assumptions C32_remote_size.
Print Assumptions C34_translation.
Print Assumptions C34_headers.
Print Assumptions C34_load.
Print Assumptions C34_image_served.
Print Assumptions C34_refuted_beyond_image.
