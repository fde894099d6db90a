(** Proofs about the archive formats. *)
From Coq Require Import String List Arith NArith ZArith Bool Lia ZifyBool ZifyNat ZifyN Sorted.
From Verif Require Import Base BaseFacts KeyModel ArchiveModel RpcModel RpcSpec RpcProofs WireModel WireSpec ArchiveSpec.
Import ListNotations.
Local Open Scope N_scope.
Ltac Zify.zify_post_hook ::= Z.div_mod_to_equations.

(** ** Base64 *)

Lemma value_char : forall v, v < 64 -> b64_value (b64_char v) = Some v.
Proof.
  intros v H. unfold b64_char, b64_value.
  destruct (v <? 26) eqn:E1; [|destruct (v <? 52) eqn:E2; [|destruct (v <? 62) eqn:E3; [|destruct (v =? 62) eqn:E4]]].
  - replace ((65 <=? 65 + v) && (65 + v <=? 90)) with true by lia. f_equal. lia.
  - replace ((65 <=? 97 + (v - 26)) && (97 + (v - 26) <=? 90)) with false by lia.
    replace ((97 <=? 97 + (v - 26)) && (97 + (v - 26) <=? 122)) with true by lia. f_equal. lia.
  - replace ((65 <=? 48 + (v - 52)) && (48 + (v - 52) <=? 90)) with false by lia.
    replace ((97 <=? 48 + (v - 52)) && (48 + (v - 52) <=? 122)) with false by lia.
    replace ((48 <=? 48 + (v - 52)) && (48 + (v - 52) <=? 57)) with true by lia. f_equal. lia.
  - cbn. f_equal. lia.
  - cbn. f_equal. lia.
Qed.

Lemma char_value : forall c v, b64_value c = Some v -> c = b64_char v /\ v < 64.
Proof.
  intros c v H. unfold b64_value in H.
  destruct ((65 <=? c) && (c <=? 90)) eqn:E1;
    [|destruct ((97 <=? c) && (c <=? 122)) eqn:E2; [|destruct ((48 <=? c) && (c <=? 57)) eqn:E3;
      [|destruct (c =? 43) eqn:E4; [|destruct (c =? 47) eqn:E5; [|discriminate]]]]];
    injection H as <-; unfold b64_char.
  - replace (c - 65 <? 26) with true by lia. lia.
  - replace (c - 97 + 26 <? 26) with false by lia. replace (c - 97 + 26 <? 52) with true by lia. lia.
  - replace (c - 48 + 52 <? 26) with false by lia. replace (c - 48 + 52 <? 52) with false by lia.
    replace (c - 48 + 52 <? 62) with true by lia. lia.
  - cbn. lia.
  - cbn. lia.
Qed.

Lemma char_not_pad : forall v, v < 64 -> (b64_char v =? PAD) = false.
Proof.
  intros v H. unfold b64_char, PAD.
  destruct (v <? 26) eqn:E1; [lia|]. destruct (v <? 52) eqn:E2; [lia|]. destruct (v <? 62) eqn:E3; [lia|].
  destruct (v =? 62); reflexivity.
Qed.

Lemma stands_char : forall v, v < 64 -> stands_for (b64_char v) v.
Proof.
  assert (H : forallb (fun v => match nth_error alphabet v with
     | Some c => c =? b64_char (N.of_nat v) | None => false end) (seq 0 64) = true) by (vm_compute; reflexivity).
  rewrite forallb_forall in H. intros v Hv. unfold stands_for.
  specialize (H (N.to_nat v)). rewrite in_seq in H. specialize (H ltac:(lia)).
  destruct (nth_error alphabet (N.to_nat v)) as [c|]; [|discriminate]. rewrite N2Nat.id in H. f_equal. lia.
Qed.

Lemma stands_inv : forall c v, stands_for c v -> c = b64_char v /\ v < 64.
Proof.
  intros c v H. assert (Hv : v < 64).
  { unfold stands_for in H. assert (Hn : nth_error alphabet (N.to_nat v) <> None) by congruence.
    apply nth_error_Some in Hn. change (List.length alphabet) with 64%nat in Hn. lia. }
  split; auto. pose proof (stands_char v Hv) as H2. unfold stands_for in *. congruence.
Qed.

(** Three steps of induction on lists. *)
Lemma list_ind3 : forall (Q : list byte -> Prop),
  Q [] -> (forall a, Q [a]) -> (forall a b, Q [a; b]) ->
  (forall a b c l, Q l -> Q (a :: b :: c :: l)) -> forall l, Q l.
Proof.
  intros Q H0 H1 H2 H3. fix IH 1. intros [|a [|b [|c l]]]; [exact H0|apply H1|apply H2|apply H3, IH].
Qed.
Lemma list_ind4 : forall (Q : list byte -> Prop),
  Q [] -> (forall a, Q [a]) -> (forall a b, Q [a; b]) -> (forall a b c, Q [a; b; c]) ->
  (forall a b c d l, Q l -> Q (a :: b :: c :: d :: l)) -> forall l, Q l.
Proof.
  intros Q H0 H1 H2 H3 H4. fix IH 1. intros [|a [|b [|c [|d l]]]]; [exact H0|apply H1|apply H2|apply H3|apply H4, IH].
Qed.

Lemma encode_base64 : forall l, bytes_ok l -> base64 l (b64_encode l).
Proof.
  unfold bytes_ok, byte_ok. induction l using list_ind3; intros H; cbn [b64_encode].
  - constructor.
  - inversion H; subst. eapply base64_one; [unfold byte_ok; lia|apply stands_char; lia..|lia].
  - inversion H as [|? ? Ha H']; subst. inversion H' as [|? ? Hb _]; subst.
    eapply base64_two; [unfold byte_ok; lia..|apply stands_char; lia|apply stands_char; lia|apply stands_char; lia|lia].
  - inversion H as [|? ? Ha H']; subst. inversion H' as [|? ? Hb H'']; subst. inversion H'' as [|? ? Hc Hl]; subst.
    eapply base64_three; [unfold byte_ok; lia..|apply stands_char; lia|apply stands_char; lia|apply stands_char; lia|apply stands_char; lia|lia|auto].
Qed.

Lemma base64_ok : forall l t, base64 l t -> bytes_ok l.
Proof. induction 1; unfold bytes_ok; repeat constructor; auto. Qed.

Lemma base64_decode : forall l t, base64 l t -> b64_decode t = Some l.
Proof.
  unfold byte_ok. induction 1; cbn [b64_decode];
    repeat match goal with H : stands_for _ _ |- _ => apply stands_inv in H as [-> ?] end;
    rewrite ?value_char, ?char_not_pad by auto.
  - reflexivity.
  - unfold byte_ok in *. rewrite IHbase64. f_equal. f_equal; [lia|]. f_equal; [lia|]. f_equal. lia.
  - unfold byte_ok in *. change (61 =? PAD) with true. replace (y mod 4 =? 0) with true by lia. cbn.
    f_equal. f_equal; [lia|]. f_equal. lia.
  - unfold byte_ok in *. change (61 =? PAD) with true. replace (x mod 16 =? 0) with true by lia. cbn. f_equal. f_equal. lia.
Qed.

Lemma decode_base64 : forall t l, b64_decode t = Some l -> base64 l t.
Proof.
  induction t using list_ind4; intros l0 H; cbn [b64_decode] in H; try discriminate.
  - injection H as <-. constructor.
  - destruct (b64_value a) as [w|] eqn:Ea; [|discriminate]. apply char_value in Ea as [-> Hw].
    destruct (b64_value b) as [x|] eqn:Eb; [|discriminate]. apply char_value in Eb as [-> Hx].
    destruct (c =? PAD) eqn:Ec.
    + destruct (_ && _ && _) eqn:E; [|discriminate]. injection H as <-.
      destruct t; [|lia]. assert (c = 61) by (unfold PAD in *; lia). assert (d = 61) by (unfold PAD in *; lia). subst.
      eapply base64_one; [unfold byte_ok; lia|apply stands_char; lia|apply stands_char; lia|lia].
    + destruct (b64_value c) as [y|] eqn:Ey; [|discriminate]. apply char_value in Ey as [-> Hy].
      destruct (d =? PAD) eqn:Ed.
      * destruct (_ && _) eqn:E; [|discriminate]. injection H as <-.
        destruct t; [|lia]. assert (d = 61) by (unfold PAD in *; lia). subst.
        eapply base64_two; [unfold byte_ok; lia..|apply stands_char; lia|apply stands_char; lia|apply stands_char; lia|lia].
      * destruct (b64_value d) as [z|] eqn:Ez; [|discriminate]. apply char_value in Ez as [-> Hz].
        destruct (b64_decode t) as [r|] eqn:Et; [|discriminate]. injection H as <-.
        eapply base64_three; [unfold byte_ok; lia..|apply stands_char; lia|apply stands_char; lia|apply stands_char; lia|apply stands_char; lia|lia|].
        now apply IHt.
Qed.

Lemma b64_roundtrip : forall l, bytes_ok l -> b64_decode (b64_encode l) = Some l.
Proof. intros. now apply base64_decode, encode_base64. Qed.

Lemma base64_length : forall l t, base64 l t -> (List.length l <= List.length t)%nat.
Proof. induction 1; cbn [List.length] in *; lia. Qed.

Lemma b64_decode_ok : forall t l, b64_decode t = Some l -> bytes_ok l /\ (List.length l <= List.length t)%nat.
Proof. intros t l H. apply decode_base64 in H. split; [eapply base64_ok|eapply base64_length]; eauto. Qed.

(** ** CBOR *)

Lemma be_fold : forall l a, fold_left (fun v x => v * 256 + x) l a = a * 256 ^ N.of_nat (List.length l) + le_val (rev l).
Proof.
  induction l as [|x l IH]; intros a; cbn [fold_left rev].
  - cbn. lia.
  - rewrite IH, le_val_app. cbn [le_val List.length]. rewrite rev_length, Nat2N.inj_succ, N.pow_succ_r'. lia.
Qed.

Lemma be_big_endian : forall n x, x < 256 ^ N.of_nat n -> big_endian (be_bytes n x) x.
Proof.
  intros n x H. unfold big_endian, be_bytes. split.
  - unfold bytes_ok. apply Forall_rev. apply le_bytes_ok.
  - rewrite be_fold, rev_involutive, le_val_le_bytes by auto. lia.
Qed.

Lemma be_length : forall n x, List.length (be_bytes n x) = n.
Proof. intros. unfold be_bytes. now rewrite rev_length, le_bytes_length. Qed.

Lemma be_val_bytes : forall n x, x < 256 ^ N.of_nat n -> be_val (be_bytes n x) = x.
Proof. intros. unfold be_val, be_bytes. now rewrite rev_involutive, le_val_le_bytes. Qed.

Lemma take_app : forall n d r, N.of_nat (List.length d) = n -> take n (d ++ r) = Some (d, r).
Proof.
  intros n d r H. unfold take. rewrite app_length. replace (_ <? n) with false by lia.
  replace (N.to_nat n) with (List.length d) by lia. now rewrite firstn_app_exact, skipn_app_exact.
Qed.

Lemma take_spec : forall n l d r, take n l = Some (d, r) -> l = d ++ r /\ N.of_nat (List.length d) = n.
Proof.
  intros n l d r H. unfold take in H. destruct (_ <? n) eqn:E; [discriminate|]. injection H as <- <-.
  split; [now rewrite firstn_skipn|]. rewrite firstn_length. lia.
Qed.

Lemma cbor_head_ok : forall major n, n < N64 -> head major n (cbor_head major n).
Proof.
  intros major n H. unfold cbor_head, N64, N32 in *.
  destruct (n <? 24) eqn:E1; [constructor; lia|].
  destruct (n <? 256) eqn:E2. { apply (head_bytes major 0); [lia|now rewrite be_length|apply be_big_endian; cbn; lia]. }
  destruct (n <? 65536) eqn:E3. { apply (head_bytes major 1); [lia|now rewrite be_length|apply be_big_endian; cbn; lia]. }
  destruct (n <? 2 ^ 32) eqn:E4. { apply (head_bytes major 2); [lia|now rewrite be_length|apply be_big_endian; cbn; lia]. }
  apply (head_bytes major 3); [lia|now rewrite be_length|apply be_big_endian; cbn; lia].
Qed.

(** Every encoding of a head is read. *)
Lemma read_head_of : forall major n h r, head major n h -> read_head (h ++ r) = Some (major, n, r).
Proof.
  intros major n h r [n' Hn|i n' b Hi Hl [Hb Hv]]; cbn [app].
  - unfold read_head. replace ((major * 32 + n') mod 32) with n' by lia.
    replace (n' <? 24) with true by lia. f_equal. f_equal. f_equal. lia.
  - unfold read_head. replace ((major * 32 + (24 + i)) mod 32) with (24 + i) by lia.
    replace ((major * 32 + (24 + i)) / 32) with major by lia.
    assert (Hbv : be_val b = n') by (unfold be_val; rewrite be_fold in Hv; lia).
    replace (24 + i <? 24) with false by lia.
    assert (C : i = 0 \/ i = 1 \/ i = 2 \/ i = 3) by lia.
    destruct C as [->|[->|[->| ->]]]; cbn in Hl;
      cbn [N.add N.eqb Pos.eqb Pos.add]; rewrite take_app by lia; now rewrite Hbv.
Qed.

Lemma read_head_spec : forall l m n r, read_head l = Some (m, n, r) ->
  (exists h, l = h ++ r /\ h <> []) /\ (bytes_ok l -> head m n (firstn (List.length l - List.length r) l)).
Proof.
  intros l m n r H. destruct l as [|b l]; [discriminate|]. cbn [read_head] in H. cbv zeta in H.
  destruct (b mod 32 <? 24) eqn:E0.
  - injection H as <- <- <-. split; [exists [b]; split; [reflexivity|discriminate]|]. intros _.
    cbn [List.length]. replace (S (List.length l) - List.length l)%nat with 1%nat by lia. cbn [firstn].
    replace b with (b / 32 * 32 + b mod 32) at 3 by lia. constructor. lia.
  - assert (G : forall i, i < 4 -> b mod 32 = 24 + i ->
        (let? (a, r') := take (2 ^ i) l in Some (b / 32, be_val a, r')) = Some (m, n, r) ->
        (exists h, b :: l = h ++ r /\ h <> []) /\ (bytes_ok (b :: l) -> head m n (firstn (List.length (b :: l) - List.length r) (b :: l)))).
    { clear H. intros i Hi Hb H. destruct (take (2 ^ i) l) as [[a r']|] eqn:Et; [|discriminate]. injection H as <- <- <-.
      apply take_spec in Et as [-> El]. split; [exists (b :: a); split; [reflexivity|discriminate]|]. intros Hok.
      cbn [List.length]. rewrite app_length.
      replace (S (List.length a + List.length r') - List.length r')%nat with (S (List.length a)) by lia.
      cbn [firstn]. rewrite firstn_app_exact by reflexivity.
      replace b with (b / 32 * 32 + (24 + i)) at 2 by lia. constructor; auto.
      inversion Hok as [|? ? _ Hr]; subst. apply Forall_app in Hr as [Ha _]. split; auto.
      rewrite be_fold. unfold be_val. lia. }
    destruct (b mod 32 =? 24) eqn:E1; [apply (G 0); [lia..|exact H]|].
    destruct (b mod 32 =? 25) eqn:E2; [apply (G 1); [lia..|exact H]|].
    destruct (b mod 32 =? 26) eqn:E3; [apply (G 2); [lia..|exact H]|].
    destruct (b mod 32 =? 27) eqn:E4; [apply (G 3); [lia..|exact H]|]. discriminate.
Qed.

Lemma read_cbor_head : forall major n r, n < N64 -> read_head (cbor_head major n ++ r) = Some (major, n, r).
Proof. intros. now apply read_head_of, cbor_head_ok. Qed.

Lemma read_major_head : forall major n r, n < N64 -> read_major major (cbor_head major n ++ r) = Some (n, r).
Proof. intros. unfold read_major. rewrite read_cbor_head by auto. now rewrite N.eqb_refl. Qed.

Lemma read_bytes_cbor : forall major d r, N.of_nat (List.length d) < N64 ->
  read_bytes major (cbor_bytes major d ++ r) = Some (d, r).
Proof.
  intros. unfold read_bytes, cbor_bytes. rewrite <- app_assoc, read_major_head by auto. now apply take_app.
Qed.

Definition short (s : string) : bool := N.of_nat (List.length (text s)) <? N64.
Lemma read_name_text : forall s r, short s = true -> read_name s (cbor_text s ++ r) = Some r.
Proof.
  intros s r H. unfold read_name, cbor_text. unfold short in H. rewrite read_bytes_cbor by lia.
  now rewrite bytes_eqb_refl.
Qed.

Lemma read_below_head : forall bound n r, n < bound -> n < N64 -> read_below bound (cbor_head 0 n ++ r) = Some (n, r).
Proof. intros. unfold read_below. rewrite read_major_head by auto. now replace (n <? bound) with true by lia. Qed.

Lemma read_items_map : forall A (rd : list byte -> option (A * list byte)) (pr : A -> list byte) l r,
  (forall x r, In x l -> rd (pr x ++ r) = Some (x, r)) ->
  read_items rd (List.length l) (flat_map pr l ++ r) = Some (l, r).
Proof.
  induction l as [|x l IH]; intros r H; cbn [List.length read_items flat_map app]; [reflexivity|].
  rewrite <- app_assoc, H by now left. rewrite IH; [reflexivity|]. intros. apply H. now right.
Qed.

Lemma head_nonempty : forall major n h, head major n h -> (1 <= List.length h)%nat.
Proof. intros ? ? ? []; cbn [List.length]; lia. Qed.

Lemma flat_map_length_ge : forall A (pr : A -> list byte) l, (forall x, In x l -> (1 <= List.length (pr x))%nat) ->
  (List.length l <= List.length (flat_map pr l))%nat.
Proof.
  induction l as [|x l IH]; intros H; cbn [flat_map List.length]; [lia|]. rewrite app_length.
  specialize (H x (or_introl eq_refl)) as Hx. specialize (IH ltac:(intros; apply H; now right)). lia.
Qed.

Lemma small64 : forall n, n < 256 -> n < N64.
Proof. unfold N64. lia. Qed.

Lemma cbor_head_nonempty : forall major n, (1 <= List.length (cbor_head major n))%nat.
Proof.
  intros. unfold cbor_head. repeat match goal with |- context [if ?b then _ else _] => destruct b end;
    cbn [List.length]; lia.
Qed.

Lemma read_u8s_cbor : forall d r, bytes_ok d -> N.of_nat (List.length d) < N64 -> read_u8s (cbor_u8s d ++ r) = Some (d, r).
Proof.
  intros d r Hd Hl. unfold read_u8s, cbor_u8s. rewrite <- app_assoc, read_major_head by auto.
  rewrite app_length. pose proof (flat_map_length_ge _ (cbor_head 0) d ltac:(intros; apply cbor_head_nonempty)).
  replace (_ || _) with false by lia. rewrite Nat2N.id. apply read_items_map. intros x r0 Hin.
  unfold bytes_ok in Hd. rewrite Forall_forall in Hd. apply Hd in Hin. unfold byte_ok in Hin.
  apply read_below_head; [lia|now apply small64].
Qed.

Lemma read_bytes32_cbor : forall h r, List.length h = 32%nat -> read_bytes32 (cbor_bytes 2 h ++ r) = Some (h, r).
Proof.
  intros h r H. unfold read_bytes32. rewrite read_bytes_cbor by (rewrite H; reflexivity). now rewrite H.
Qed.

Lemma read_spec_cbor : forall s r, match s with SZero => True | SDigest h => List.length h = 32%nat end ->
  read_spec (cbor_spec s ++ r) = Some (s, r).
Proof.
  intros [|h] r H; unfold read_spec, cbor_spec.
  - replace (read_head (cbor_text "Zero" ++ r)) with (Some (3, 4, text "Zero" ++ r)) by reflexivity.
    change (3 =? 5) with false. cbv iota. now rewrite read_name_text.
  - rewrite <- !app_assoc, read_cbor_head by reflexivity. rewrite !N.eqb_refl.
    rewrite read_name_text by reflexivity. now rewrite read_bytes32_cbor.
Qed.

Lemma read_entry_cbor : forall e r, N.of_nat (fst e) < N64 ->
  match snd e with SZero => True | SDigest h => List.length h = 32%nat end ->
  read_entry (cbor_entry e ++ r) = Some (e, r).
Proof.
  intros [k s] r Hk Hs. unfold read_entry, cbor_entry. cbn [fst snd] in *.
  rewrite <- app_assoc, read_below_head by auto. rewrite read_spec_cbor by auto. now rewrite Nat2N.id.
Qed.

(** Inserting in order builds the list itself. *)
Lemma insert_last : forall m k s, (forall k', In k' (map fst m) -> (k' < k)%nat) -> insert k s m = m ++ [(k, s)].
Proof.
  induction m as [|[k' s'] m IH]; intros k s H; cbn [insert app]; [reflexivity|].
  specialize (H k' (or_introl eq_refl)) as Hk. replace (k <? k')%nat with false by lia.
  replace (k =? k')%nat with false by lia. f_equal. apply IH. intros k0 Hin. apply H. now right.
Qed.

Lemma build_sorted : forall l a, StronglySorted lt (map fst (a ++ l)) ->
  fold_left (fun m e => insert (fst e) (snd e) m) l a = a ++ l.
Proof.
  induction l as [|[k s] l IH]; intros a H; cbn [fold_left fst snd]; [now rewrite app_nil_r|].
  rewrite insert_last.
  - rewrite IH; [now rewrite <- app_assoc|]. now rewrite <- app_assoc.
  - intros k' Hin. clear IH. induction a as [|[k0 s0] a IH]; [contradiction|].
    cbn [app map fst] in H. inversion H as [|? ? Hs Hf]; subst. destruct Hin as [E|Hin]; [|now apply IH].
    cbn [fst] in E. subst. rewrite Forall_forall in Hf. apply Hf. rewrite map_app, in_app_iff. right. now left.
Qed.

Lemma map_roundtrip : forall m, map_typed m -> map_of_cbor (cbor_of_map m) = Some m.
Proof.
  intros m (Hs & Hl & Hf). unfold map_of_cbor, cbor_of_map. rewrite read_major_head by (unfold N64; lia).
  pose proof (flat_map_length_ge _ cbor_entry m ltac:(intros; unfold cbor_entry; rewrite app_length;
    pose proof (cbor_head_nonempty 0 (N.of_nat (fst x))); lia)).
  replace (_ <? _) with false by lia. rewrite Nat2N.id, <- (app_nil_r (flat_map cbor_entry m)).
  rewrite read_items_map.
  - f_equal. now apply (build_sorted m []).
  - intros [k s] r Hin. rewrite Forall_forall in Hf. apply Hf in Hin. cbn [fst snd] in Hin.
    apply read_entry_cbor; cbn [fst snd]; [unfold N64; lia|]. destruct s; [exact Logic.I|tauto].
Qed.

(** Sizes *)
Lemma cbor_head_length : forall major n, (List.length (cbor_head major n) <= 9)%nat.
Proof.
  intros. unfold cbor_head. repeat match goal with |- context [if ?b then _ else _] => destruct b end;
    cbn [List.length]; rewrite ?be_length; lia.
Qed.

Lemma map_size : forall m, map_typed m -> (List.length (cbor_of_map m) <= 128 * List.length m + 128)%nat.
Proof.
  intros m (_ & _ & Hf). unfold cbor_of_map. rewrite app_length.
  pose proof (cbor_head_length 5 (N.of_nat (List.length m))).
  assert (List.length (flat_map cbor_entry m) <= 128 * List.length m)%nat; [|lia].
  clear H. induction Hf as [|[k s] m [_ Hs] _ IH]; cbn [flat_map List.length]; [lia|]. rewrite app_length.
  unfold cbor_entry at 1. rewrite app_length. cbn [fst snd] in *. pose proof (cbor_head_length 0 (N.of_nat k)).
  assert (List.length (cbor_spec s) <= 60)%nat; [|lia]. destruct s as [|h].
  - cbn. lia.
  - destruct Hs as [Hs _]. unfold cbor_spec, cbor_bytes. rewrite !app_length. rewrite Hs. cbn. lia.
Qed.

Lemma cbor_head_bytes : forall major n, major < 8 -> bytes_ok (cbor_head major n).
Proof.
  intros major n H. unfold cbor_head.
  assert (B : forall k, bytes_ok (be_bytes k n)) by (intros; apply Forall_rev, le_bytes_ok).
  unfold bytes_ok, byte_ok in *.
  repeat match goal with |- context [if ?b then _ else _] => destruct b eqn:? end; constructor; auto; lia.
Qed.

Lemma text_bytes : forall s, bytes_ok (text s).
Proof.
  unfold bytes_ok, byte_ok. induction s as [|a s IH]; cbn [text]; constructor; auto. apply Ascii.N_ascii_bounded.
Qed.

Lemma map_bytes : forall m, map_typed m -> bytes_ok (cbor_of_map m).
Proof.
  intros m (_ & _ & Hf). unfold cbor_of_map, bytes_ok. apply Forall_app. split; [now apply cbor_head_bytes|].
  induction Hf as [|[k s] m [_ Hs] _ IH]; cbn [flat_map]; [constructor|]. apply Forall_app. split; auto.
  unfold cbor_entry. cbn [fst snd] in *. apply Forall_app. split; [now apply cbor_head_bytes|]. destruct s as [|h].
  - unfold cbor_spec, cbor_text, cbor_bytes. apply Forall_app. split; [now apply cbor_head_bytes|apply text_bytes].
  - unfold cbor_spec, cbor_text, cbor_bytes. destruct Hs as [_ Hs].
    repeat (apply Forall_app; split); first [now apply cbor_head_bytes|apply text_bytes|exact Hs].
Qed.

(** What is written is the encoding of the value. *)
Lemma encode_flat : forall A (it : A -> item) (pr : A -> list byte) l,
  (forall x, In x l -> encodes (it x) (pr x)) -> encode_all (map it l) (flat_map pr l).
Proof.
  induction l as [|x l IH]; intros H; cbn [map flat_map]; constructor.
  - apply H. now left.
  - apply IH. intros. apply H. now right.
Qed.

Lemma encode_text : forall s, short s = true -> encodes (key s) (cbor_text s).
Proof. intros s H. unfold key, cbor_text, cbor_bytes. apply enc_text, cbor_head_ok. unfold short in H. lia. Qed.

Lemma encode_u8s : forall d, bytes_ok d -> N.of_nat (List.length d) < N64 -> encodes (Arr (map Uint d)) (cbor_u8s d).
Proof.
  intros d Hd Hl. unfold cbor_u8s. apply enc_arr.
  - rewrite map_length. now apply cbor_head_ok.
  - apply encode_flat. intros x Hin. constructor. apply cbor_head_ok.
    unfold bytes_ok in Hd. rewrite Forall_forall in Hd. apply Hd in Hin. unfold byte_ok in Hin. now apply small64.
Qed.

Lemma encode_app : forall a b x y, encode_all a x -> encode_all b y -> encode_all (a ++ b) (x ++ y).
Proof.
  induction a as [|i a IH]; intros b x y Ha Hb; inversion Ha; subst; cbn [app]; [exact Hb|].
  rewrite <- app_assoc. constructor; auto.
Qed.

Lemma encode_one : forall i b, encodes i b -> encode_all [i] b.
Proof. intros i b H. rewrite <- (app_nil_r b). repeat constructor. exact H. Qed.

Lemma encode_spec : forall s, match s with SZero => True | SDigest h => List.length h = 32%nat end ->
  encodes (spec_item s) (cbor_spec s).
Proof.
  intros [|h] H; unfold spec_item, cbor_spec; [now apply encode_text|].
  apply enc_map; [apply cbor_head_ok; reflexivity|]. cbn [flat_map app fst snd].
  constructor; [now apply encode_text|]. apply encode_one. unfold cbor_bytes.
  apply enc_bytes, cbor_head_ok. rewrite H. reflexivity.
Qed.

Lemma map_encodes : forall m, map_typed m -> encodes (map_item m) (cbor_of_map m).
Proof.
  intros m (_ & Hl & Hf). unfold map_item, cbor_of_map. apply enc_map.
  - rewrite map_length. now apply cbor_head_ok.
  - clear Hl. induction Hf as [|[k s] m [Hk Hs] _ IH]; cbn [map flat_map fst snd]; [constructor|].
    apply (encode_app [_; _]); auto. unfold cbor_entry. cbn [fst snd] in *. constructor.
    + constructor. apply cbor_head_ok. unfold N64. lia.
    + apply encode_one, encode_spec. destruct s; tauto.
Qed.

(** ** The mapping file *)

Lemma lt_32_64 : forall n, n < N32 -> n < N64.
Proof. unfold N32, N64. lia. Qed.

Lemma file_roundtrip : forall f, mapping_typed f -> file_of_cbor (cbor_of_file f) = Some f.
Proof.
  intros [d v ct p t] (Hv & Hp & Hd & Ld & Hc & Lc & Ht). unfold file_of_cbor,  cbor_of_file.
  cbn [mf_domain mf_version mf_ciphertext mf_plaintext_len mf_tag] in *.
  rewrite read_major_head by reflexivity. change (negb (5 =? 5)) with false. cbv iota.
  rewrite read_name_text by reflexivity. rewrite read_u8s_cbor by auto.
  rewrite read_name_text by reflexivity. rewrite read_below_head by (auto using lt_32_64).
  rewrite read_name_text by reflexivity. rewrite read_u8s_cbor by auto.
  rewrite read_name_text by reflexivity. rewrite read_below_head by auto.
  rewrite read_name_text by reflexivity. rewrite <- (app_nil_r (cbor_bytes 2 t)).
  now rewrite read_bytes32_cbor.
Qed.

Lemma file_encodes : forall f, mapping_typed f -> encodes (file_item f) (cbor_of_file f).
Proof.
  intros [d v ct p t] (Hv & Hp & Hd & Ld & Hc & Lc & Ht). unfold file_item, cbor_of_file.
  cbn [mf_domain mf_version mf_ciphertext mf_plaintext_len mf_tag] in *.
  apply enc_map; [apply cbor_head_ok; reflexivity|]. cbn [flat_map app fst snd].
  repeat (apply enc_cons; [first [now apply encode_text|now apply encode_u8s|
    apply enc_uint, cbor_head_ok; auto using lt_32_64]|]).
  apply encode_one. unfold cbor_bytes. apply enc_bytes, cbor_head_ok. rewrite Ht. reflexivity.
Qed.

Lemma read_below_spec : forall bound l n r, read_below bound l = Some (n, r) -> n < bound.
Proof.
  intros bound l n r H. unfold read_below in H. destruct (read_major 0 l) as [[n' r']|] eqn:E; [|discriminate].
  destruct (n' <? bound) eqn:Eb; [|discriminate]. injection H as <- <-. lia.
Qed.

Lemma read_items_spec : forall A (rd : list byte -> option (A * list byte)) (Q : A -> Prop) n l xs r,
  (forall l x r, rd l = Some (x, r) -> Q x) ->
  read_items rd n l = Some (xs, r) -> List.length xs = n /\ Forall Q xs.
Proof.
  intros A rd Q. induction n as [|n IH]; intros l xs r H E; cbn [read_items] in E.
  - injection E as <- <-. split; [reflexivity|constructor].
  - destruct (rd l) as [[x r1]|] eqn:E1; [|discriminate]. apply H in E1.
    destruct (read_items rd n r1) as [[xs' r2]|] eqn:E2; [|discriminate]. injection E as <- <-.
    apply IH in E2 as (H1 & H2); auto. cbn [List.length]. split; [lia|now constructor].
Qed.

Lemma read_u8s_spec : forall l d r, read_u8s l = Some (d, r) -> bytes_ok d /\ N.of_nat (List.length d) < N64.
Proof.
  intros l d r H. unfold read_u8s in H. destruct (read_major 4 l) as [[n r']|] eqn:E; [|discriminate].
  destruct (_ || _) eqn:En; [discriminate|].
  apply (read_items_spec _ _ byte_ok) in H as (H1 & H2).
  - split; [exact H2|]. lia.
  - intros l0 x r0 H0. apply read_below_spec in H0. exact H0.
Qed.

Lemma file_of_cbor_typed : forall b f, file_of_cbor b = Some f -> mapping_typed f.
Proof.
  intros b f H. unfold file_of_cbor in H.
  destruct (read_major 5 b) as [[n r]|]; [|discriminate]. destruct (negb (n =? 5)); [discriminate|].
  destruct (read_name "domain" r) as [r1|]; [|discriminate].
  destruct (read_u8s r1) as [[d r2]|] eqn:E2; [|discriminate]. apply read_u8s_spec in E2 as (Hd & Ld).
  destruct (read_name "version" r2) as [r3|]; [|discriminate].
  destruct (read_below N32 r3) as [[v r4]|] eqn:E4; [|discriminate]. apply read_below_spec in E4.
  destruct (read_name "ciphertext" r4) as [r5|]; [|discriminate].
  destruct (read_u8s r5) as [[ct r6]|] eqn:E6; [|discriminate]. apply read_u8s_spec in E6 as (Hc & Lc).
  destruct (read_name "plaintext_len" r6) as [r7|]; [|discriminate].
  destruct (read_below N64 r7) as [[p r8]|] eqn:E8; [|discriminate]. apply read_below_spec in E8.
  destruct (read_name "hmac_tag" r8) as [r9|] eqn:E9; [|discriminate].
  unfold read_bytes32 in H. destruct (read_bytes 2 r9) as [[t r10]|]; [|discriminate].
  destruct (_ =? 32) eqn:Et; [|discriminate]. injection H as <-. unfold mapping_typed.
  cbn [mf_domain mf_version mf_ciphertext mf_plaintext_len mf_tag].
  split; [auto|]. split; [auto|]. split; [auto|]. split; [auto|]. split; [auto|]. split; [auto|]. lia.
Qed.

(** ** metadata.json *)

Lemma read_json_i32 : forall n, n < N32 -> read_i32 (json_i32 n) = Some n.
Proof.
  intros n H. unfold read_i32, json_i32, N32 in *. destruct (n <? 2 ^ 31) eqn:E; [now rewrite E|].
  replace ((1 <=? _) && _) with true by lia. f_equal. lia.
Qed.

Lemma read_json_comp : forall a, comp_typed a -> read_comp (Some (json_comp a)) = Some a.
Proof.
  intros [|n] H; unfold json_comp, read_comp.
  - now rewrite bytes_eqb_refl.
  - unfold field. rewrite bytes_eqb_refl.
    replace (get "level" [(text "level", json_i32 n)]) with (Some (Some (json_i32 n))) by reflexivity.
    now rewrite read_json_i32.
Qed.

Lemma read_json_opt_key : forall k, match k with None => True | Some k => bytes_ok k /\ N.of_nat (List.length k) < N64 end ->
  read_opt_key (Some (json_opt_key k)) = Some k.
Proof.
  intros [k|] H; unfold json_opt_key, read_opt_key; [|reflexivity]. rewrite b64_roundtrip by tauto.
  now replace (_ <? N64) with true by lia.
Qed.

Lemma meta_roundtrip : forall m, ameta_typed m -> meta_json_dec (meta_json m) = Some m.
Proof.
  intros [v s k a hk h] (Hv & Hs & Ha & Hk & Hhk & Hh). unfold meta_json_dec, meta_json. rewrite decode_print.
  cbn [am_version am_ssc am_key am_comp am_hmac_key am_hmac] in *.
  set (l := [_; _; _; _; _; _]).
  replace (get "format_version" l) with (Some (Some (JNum v))) by reflexivity.
  replace (get "stripe_sector_count" l) with (Some (Some (JNum s))) by reflexivity.
  replace (get "encryption_key" l) with (Some (Some (json_opt_key k))) by reflexivity.
  replace (get "compression" l) with (Some (Some (json_comp a))) by reflexivity.
  replace (get "hmac_key" l) with (Some (Some (JStr (b64_encode hk)))) by reflexivity.
  replace (get "metadata_hmac" l) with (Some (Some (JStr (b64_encode h)))) by reflexivity.
  unfold read_uint, read_key. replace (v <? N32) with true by (unfold N32; lia).
  replace (s <? N64) with true by (unfold N64; lia).
  rewrite read_json_opt_key, read_json_comp by auto. now rewrite !b64_roundtrip.
Qed.

Lemma level_json : forall n, n < N32 -> level_value n (json_i32 n).
Proof.
  intros n H. unfold level_value, json_i32, N32 in *. destruct (n <? 2 ^ 31) eqn:E.
  - left. split; [lia|reflexivity].
  - right. exists (2 ^ 32 - n). split; [reflexivity|lia].
Qed.

Lemma meta_json_value : forall m, ameta_typed m -> exists v, decode (meta_json m) = Some v /\ meta_value m v.
Proof.
  intros m (_ & _ & Ha & Hk & Hhk & Hh). unfold meta_json. eexists. split; [apply decode_print|].
  exists (json_opt_key (am_key m)), (json_comp (am_comp m)), (b64_encode (am_hmac_key m)), (b64_encode (am_hmac m)).
  split. { destruct (am_key m); cbn; [|reflexivity]. eexists. split; [now apply encode_base64|reflexivity]. }
  split. { destruct (am_comp m) as [|n]; cbn; [reflexivity|]. exists (json_i32 n). split; [now apply level_json|reflexivity]. }
  split; [now apply encode_base64|]. split; [now apply encode_base64|]. reflexivity.
Qed.

Lemma read_i32_typed : forall v n, read_i32 v = Some n -> n < N32.
Proof.
  intros v n H. unfold read_i32 in H. destruct v as [|x|x| | |]; try discriminate.
  - destruct (_ <? _) eqn:E; [|discriminate]. injection H as <-. unfold N32. lia.
  - destruct ((1 <=? x) && (x <=? 2 ^ 31)) eqn:E; [|discriminate].
    assert (n = N32 - x) as -> by congruence. unfold N32 in *. lia.
Qed.

Lemma read_comp_typed : forall v a, read_comp v = Some a -> comp_typed a.
Proof.
  intros [v|] a H; cbn in H; [|injection H as <-; exact Logic.I].
  destruct v as [| | |s|l|l]; try discriminate.
  - destruct (bytes_eqb _ _); [|discriminate]. injection H as <-. exact Logic.I.
  - destruct l as [|[k v] l]; [discriminate|]. destruct v as [| | | | |l']; try discriminate. destruct l; [|discriminate].
    destruct (bytes_eqb _ _); [|discriminate]. destruct (get _ _) as [[v|]|]; try discriminate.
    destruct (read_i32 v) as [n|] eqn:E; [|discriminate]. injection H as <-. now apply read_i32_typed in E.
Qed.

Lemma read_uint_typed : forall b v n, read_uint b v = Some n -> n < b.
Proof.
  intros b [[|x|x| | |]|] n H; try discriminate. cbn in H. destruct (_ <? _) eqn:E; [|discriminate]. injection H as <-. lia.
Qed.

Lemma read_key_typed : forall v k, read_key v = Some k -> bytes_ok k.
Proof.
  intros [[| | |s| |]|] k H; try discriminate; cbn in H; [now apply b64_decode_ok in H|]. injection H as <-. constructor.
Qed.

Lemma meta_json_typed : forall b m, meta_json_dec b = Some m -> ameta_typed m.
Proof.
  intros b m H. unfold meta_json_dec in H. destruct (decode b) as [v|]; [|discriminate].
  destruct v as [| | | | |l]; try discriminate.
  destruct (get "format_version" l) as [v1|]; [|discriminate].
  destruct (read_uint N32 v1) as [x1|] eqn:E1; [|discriminate]. apply read_uint_typed in E1.
  destruct (get "stripe_sector_count" l) as [v2|]; [|discriminate].
  destruct (read_uint N64 v2) as [x2|] eqn:E2; [|discriminate]. apply read_uint_typed in E2.
  destruct (get "encryption_key" l) as [v3|]; [|discriminate].
  destruct (read_opt_key v3) as [x3|] eqn:E3; [|discriminate].
  destruct (get "compression" l) as [v4|]; [|discriminate].
  destruct (read_comp v4) as [x4|] eqn:E4; [|discriminate]. apply read_comp_typed in E4.
  destruct (get "hmac_key" l) as [v5|]; [|discriminate].
  destruct (read_key v5) as [x5|] eqn:E5; [|discriminate]. apply read_key_typed in E5.
  destruct (get "metadata_hmac" l) as [v6|]; [|discriminate].
  destruct (read_key v6) as [x6|] eqn:E6; [|discriminate]. apply read_key_typed in E6.
  injection H as <-. unfold ameta_typed. cbn [am_version am_ssc am_key am_comp am_hmac_key am_hmac].
  split; [auto|]. split; [auto|]. split; [auto|]. split; [|auto].
  destruct x3 as [k|]; [|exact Logic.I]. destruct v3 as [[| | |s|l3|l3]|]; try discriminate. cbn [read_opt_key] in E3.
  destruct (b64_decode s) as [k'|] eqn:Eb; [|discriminate]. destruct (_ <? N64) eqn:El; [|discriminate].
  injection E3 as <-. apply b64_decode_ok in Eb. unfold N64 in El. split; [tauto|lia].
Qed.

(** ** The laws of the formats *)
Lemma wire_lawful : forall P, crypto_lawful P -> lawful (with_wire P).
Proof.
  intros P X. constructor; cbn [with_wire zenc zdec xenc xdec sha mac cbor_map cbor_map_dec cbor_file cbor_file_dec ArchiveModel.json json_dec seal open_].
  - apply (x_zstd P X).
  - apply (x_xts P X).
  - apply (x_xts_bytes P X).
  - apply (x_sha P X).
  - apply (x_mac P X).
  - apply map_roundtrip.
  - apply map_size.
  - apply map_bytes.
  - apply file_roundtrip.
  - apply file_of_cbor_typed.
  - apply meta_roundtrip.
  - apply meta_json_typed.
  - apply (x_aead P X).
  - apply (x_aead_len P X).
  - apply (x_aead_bytes P X).
Qed.

(** ** Any encoding is read, not only the one that is written *)

Lemma base64_canonical : forall l t, base64 l t -> t = b64_encode l.
Proof.
  unfold byte_ok. induction 1; cbn [b64_encode];
    repeat match goal with H : stands_for _ _ |- _ => apply stands_inv in H as [-> ?] end; unfold byte_ok in *.
  - reflexivity.
  - subst t. f_equal; [f_equal; lia|]. f_equal; [f_equal; lia|]. f_equal; [f_equal; lia|]. f_equal. f_equal. lia.
  - f_equal; [f_equal; lia|]. f_equal; [f_equal; lia|]. f_equal. f_equal. lia.
  - f_equal; [f_equal; lia|]. f_equal. f_equal. lia.
Qed.

Lemma read_bytes_any : forall major d h r, head major (N.of_nat (List.length d)) h ->
  read_bytes major (h ++ d ++ r) = Some (d, r).
Proof.
  intros major d h r H. unfold read_bytes, read_major. rewrite (read_head_of _ _ _ _ H), N.eqb_refl. now apply take_app.
Qed.

Lemma read_name_any : forall s t r, encodes (key s) t -> read_name s (t ++ r) = Some r.
Proof.
  intros s t r H. inversion H as [| |b h Hh| |]; subst. unfold read_name. rewrite <- app_assoc, read_bytes_any by auto.
  now rewrite bytes_eqb_refl.
Qed.

Lemma read_below_any : forall bound n t r, n < bound -> encodes (Uint n) t -> read_below bound (t ++ r) = Some (n, r).
Proof.
  intros bound n t r Hn H. inversion H; subst. unfold read_below, read_major.
  erewrite read_head_of by eauto. rewrite N.eqb_refl. now replace (n <? bound) with true by lia.
Qed.

Lemma encodes_nonempty : forall i t, encodes i t -> (1 <= List.length t)%nat.
Proof.
  intros i t H. inversion H as [? ? Hh|? ? Hh|? ? Hh|? ? ? Hh|? ? ? Hh]; subst; apply head_nonempty in Hh; rewrite ?app_length; lia.
Qed.

Lemma read_items_any : forall A (rd : list byte -> option (A * list byte)) (it : A -> item) l t r,
  (forall x t r, In x l -> encodes (it x) t -> rd (t ++ r) = Some (x, r)) ->
  encode_all (map it l) t -> read_items rd (List.length l) (t ++ r) = Some (l, r) /\ (List.length l <= List.length t)%nat.
Proof.
  induction l as [|x l IH]; intros t r H E; cbn [map] in E; inversion E as [|? ? b t' Eb Et]; subst; cbn [List.length read_items].
  - split; [reflexivity|lia].
  - destruct (IH t' r) as [E1 E2]; [intros; apply H; auto; now right|auto|].
    rewrite <- app_assoc, (H x b (t' ++ r)) by (auto; now left). rewrite E1. split; [reflexivity|].
    apply encodes_nonempty in Eb. rewrite app_length. lia.
Qed.

Lemma read_u8s_any : forall d t r, bytes_ok d -> N.of_nat (List.length d) < N64 ->
  encodes (Arr (map Uint d)) t -> read_u8s (t ++ r) = Some (d, r).
Proof.
  intros d t r Hd Hl H. inversion H as [| | |l h t' Hh Ht|]; subst. rewrite map_length in Hh.
  unfold read_u8s, read_major. rewrite <- app_assoc, (read_head_of _ _ _ _ Hh), N.eqb_refl.
  destruct (read_items_any _ (read_below 256) Uint d t' r) as [E1 E2]; auto.
  { intros x t0 r0 Hin Hx. apply read_below_any; auto. unfold bytes_ok in Hd. rewrite Forall_forall in Hd. now apply Hd. }
  rewrite app_length. replace (_ || _) with false by lia. now rewrite Nat2N.id.
Qed.

Lemma read_bytes32_any : forall d t r, List.length d = 32%nat -> encodes (Bytes d) t -> read_bytes32 (t ++ r) = Some (d, r).
Proof.
  intros d t r Hd H. inversion H; subst. unfold read_bytes32. rewrite <- app_assoc, read_bytes_any by auto. now rewrite Hd.
Qed.

Lemma read_spec_any : forall s t r, match s with SZero => True | SDigest h => List.length h = 32%nat end ->
  encodes (spec_item s) t -> read_spec (t ++ r) = Some (s, r).
Proof.
  intros [|d] t r Hs H; unfold spec_item in H.
  - unfold read_spec. rewrite (read_name_any "Zero" t r H).
    inversion H as [| |b h Hh| |]; subst. rewrite <- app_assoc, (read_head_of _ _ _ _ Hh). reflexivity.
  - inversion H as [| | | |l h t' Hh Ht]; subst. cbn [flat_map app fst snd] in Ht.
    inversion Ht as [|x l b t1 Hk Ht1]; subst. inversion Ht1 as [|x l b1 t2 Hb Ht2]; subst. inversion Ht2; subst.
    unfold read_spec. rewrite <- !app_assoc, (read_head_of _ _ _ _ Hh). cbn [List.length]. change (N.of_nat 1 =? 1) with true.
    cbv iota. change (5 =? 5) with true. cbv iota. rewrite read_name_any by auto. now rewrite (read_bytes32_any _ _ _ Hs).
Qed.

Lemma encode_app_inv : forall a b t, encode_all (a ++ b) t -> exists x y, t = x ++ y /\ encode_all a x /\ encode_all b y.
Proof.
  induction a as [|i a IH]; intros b t H; cbn [app] in H.
  - exists [], t. split; [reflexivity|]. split; [constructor|exact H].
  - inversion H as [|? ? u v Hu Hv]; subst. apply IH in Hv as (x & y & -> & Hx & Hy).
    exists (u ++ x), y. split; [now rewrite app_assoc|]. split; [now constructor|auto].
Qed.

(** Inserting in any order: the result is sorted, and the last entry of a key wins. *)
Lemma insert_keys : forall m k s x, In x (map fst (insert k s m)) <-> x = k \/ In x (map fst m).
Proof.
  induction m as [|[k' s'] m IH]; intros k s x; cbn [insert].
  - cbn. intuition congruence.
  - destruct (k <? k')%nat; [cbn; intuition congruence|]. destruct (Nat.eqb_spec k k') as [->|]; [cbn; intuition congruence|].
    cbn [map fst In]. rewrite IH. intuition congruence.
Qed.

Lemma insert_sorted : forall m k s, StronglySorted lt (map fst m) -> StronglySorted lt (map fst (insert k s m)).
Proof.
  induction m as [|[k' s'] m IH]; intros k s H; cbn [insert].
  - repeat constructor.
  - cbn [map fst] in H. inversion H as [|? ? Hs Hf]; subst.
    destruct (Nat.ltb_spec k k').
    + cbn [map fst]. constructor; [exact H|]. constructor; auto. eapply Forall_impl; [|exact Hf]. intros; cbn in *; lia.
    + destruct (Nat.eqb_spec k k') as [->|]; [exact H|]. cbn [map fst]. constructor; [now apply IH|].
      rewrite Forall_forall in *. intros x Hx. apply insert_keys in Hx as [->|Hx]; [lia|auto].
Qed.

Lemma insert_in : forall m k s x y, StronglySorted lt (map fst m) ->
  (In (x, y) (insert k s m) <-> (x = k /\ y = s) \/ (x <> k /\ In (x, y) m)).
Proof.
  induction m as [|[k' s'] m IH]; intros k s x y H; cbn [insert].
  - cbn. intuition congruence.
  - cbn [map fst] in H. inversion H as [|? ? Hs Hf]; subst. rewrite Forall_forall in Hf.
    assert (Hm : forall z, In (x, z) m -> (k' < x)%nat) by (intros z Hz; apply Hf; apply (in_map fst _ _ Hz)).
    destruct (Nat.ltb_spec k k').
    + cbn [In]. split.
      * intros [E|[E|E]]; [injection E; auto|injection E as <- <-; right; split; [lia|auto]|].
        apply Hm in E as E2. right. split; [lia|auto].
      * intros [[-> ->]|[_ E]]; auto.
    + destruct (Nat.eqb_spec k k') as [->|].
      * cbn [In]. split.
        -- intros [E|E]; [injection E; auto|]. apply Hm in E as E2. right. split; [lia|auto].
        -- intros [[-> ->]|[N [E|E]]]; auto. injection E as <- _. congruence.
      * cbn [In]. rewrite IH by auto. split.
        -- intros [E|[E|E]]; auto; [injection E as <- <-; right; split; [lia|auto]|tauto].
        -- intros [E|[N [E|E]]]; auto.
Qed.

Lemma build_any : forall es a, StronglySorted lt (map fst a) ->
  let m := fold_left (fun m e => insert (fst e) (snd e) m) es a in
  StronglySorted lt (map fst m) /\
  forall x y, In (x, y) m <-> last_entry x es y \/ ((forall z, ~ In (x, z) es) /\ In (x, y) a).
Proof.
  induction es as [|[k s] es IH]; intros a H; cbn [fold_left fst snd].
  - split; [exact H|]. intros x y. split; [intros E; right; split; [intros z []|auto]|].
    intros [(p & q & E & _)|[_ E]]; [destruct p; discriminate|auto].
  - destruct (IH (insert k s a)) as [Hs Hi]; [now apply insert_sorted|]. split; [exact Hs|].
    intros x y. rewrite Hi, insert_in by auto. split.
    + intros [(p & q & -> & N)|[N [[-> ->]|[Nk E]]]].
      * left. exists ((k, s) :: p), q. split; auto.
      * left. exists [], es. split; auto.
      * right. split; [|exact E]. intros z [Ez|Ez]; [injection Ez; congruence|exact (N z Ez)].
    + intros [(p & q & E & N)|[N E]].
      * destruct p as [|e p]; inversion E; subst.
        -- right. split; auto.
        -- left. exists p, q. split; auto.
      * right. split; [intros z Ez; apply (N z); now right|]. right. split; [|exact E].
        intros ->. apply (N s). now left.
Qed.

Lemma entries_any : forall m t, (N.of_nat (List.length m) < 2 ^ 64)%N -> Forall entry_typed m -> encodes (map_item m) t ->
  map_of_cbor t = Some (fold_left (fun m e => insert (fst e) (snd e) m) m []).
Proof.
  intros m t Hl Hf H. unfold map_item in H. inversion H as [| | | |l h t' Hh Ht]; subst. rewrite map_length in Hh.
  unfold map_of_cbor, read_major. rewrite (read_head_of _ _ _ _ Hh), N.eqb_refl.
  assert (E : read_items read_entry (List.length m) (t' ++ []) = Some (m, []) /\ (List.length m <= List.length t')%nat).
  { clear - Hf Ht. revert t' Ht. induction Hf as [|[k s] m [Hk Hd] Hf IH]; intros t' Ht; cbn [map flat_map fst snd] in Ht.
    - inversion Ht; subst. split; [reflexivity|cbn [List.length]; lia].
    - apply (encode_app_inv [_; _]) in Ht as (x & y & -> & Hx & Hy).
      inversion Hx as [|? ? b t1 Hb Ht1]; subst. inversion Ht1 as [|? ? b1 t2 Hb1 Ht2]; subst. inversion Ht2; subst.
      destruct (IH y Hy) as [E1 E2]. cbn [List.length read_items]. unfold read_entry at 1. rewrite <- !app_assoc. cbn [fst snd] in *.
      rewrite (read_below_any N64 (N.of_nat k) b) by (auto; unfold N64; lia). cbn [app].
      rewrite (read_spec_any s b1) by (auto; destruct s; tauto). rewrite E1, Nat2N.id. split; [reflexivity|].
      apply encodes_nonempty in Hb. rewrite !app_length. lia. }
  rewrite app_nil_r in E. destruct E as [E1 E2].
  replace (_ <? _) with false by lia. rewrite Nat2N.id, E1. reflexivity.
Qed.

Lemma map_any : forall m t, map_typed m -> encodes (map_item m) t -> map_of_cbor t = Some m.
Proof.
  intros m t (Hs & Hl & Hf) H. rewrite (entries_any m t) by auto. f_equal. now apply (build_sorted m []).
Qed.

Lemma file_any : forall f t, mapping_typed f -> encodes (file_item f) t -> file_of_cbor t = Some f.
Proof.
  intros [d v ct p tag] t (Hv & Hp & Hd & Ld & Hc & Lc & Ht) H.
  cbn [mf_domain mf_version mf_ciphertext mf_plaintext_len mf_tag] in *. unfold file_item in H.
  cbn [mf_domain mf_version mf_ciphertext mf_plaintext_len mf_tag] in H.
  inversion H as [| | | |l h t' Hh Hi]; subst. cbn [flat_map app fst snd] in Hi. clear H.
  repeat match goal with H : encode_all (_ :: _) _ |- _ => inversion H; clear H; subst end.
  match goal with H : encode_all [] _ |- _ => inversion H; clear H; subst end.
  unfold file_of_cbor, read_major. rewrite (read_head_of _ _ _ _ Hh), N.eqb_refl. change (negb _) with false. cbv iota.
  rewrite read_name_any by auto. rewrite (read_u8s_any d) by auto.
  rewrite read_name_any by auto. rewrite (read_below_any N32 v) by auto.
  rewrite read_name_any by auto. rewrite (read_u8s_any ct) by auto.
  rewrite read_name_any by auto. rewrite (read_below_any N64 p) by auto.
  rewrite read_name_any by auto. now rewrite (read_bytes32_any _ _ _ Ht).
Qed.
