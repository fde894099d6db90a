(** UTF-8, as the Unicode standard defines it (Table 3-6), and that the check of
    RpcModel.v accepts exactly the encodings of sequences of scalar values. *)
From Coq Require Import List NArith ZArith Bool Lia ZifyBool ZifyNat ZifyN.
From Verif Require Import Base RpcModel.
Import ListNotations.
Local Open Scope N_scope.
Ltac Zify.zify_post_hook ::= Z.div_mod_to_equations.

(** A Unicode scalar value: a code point that is not a surrogate. *)
Definition scalar (c : N) : Prop := c < 0x110000 /\ ~ (0xD800 <= c <= 0xDFFF).

Definition encode_char (c : N) : list byte :=
  if c <? 0x80 then [c]
  else if c <? 0x800 then [0xC0 + c / 64; 0x80 + c mod 64]
  else if c <? 0x10000 then [0xE0 + c / 4096; 0x80 + c / 64 mod 64; 0x80 + c mod 64]
  else [0xF0 + c / 262144; 0x80 + c / 4096 mod 64; 0x80 + c / 64 mod 64; 0x80 + c mod 64].

Definition utf8_text (l : list byte) : Prop :=
  exists cs, Forall scalar cs /\ l = flat_map encode_char cs.

Lemma encode_length c : (1 <= length (encode_char c) <= 4)%nat.
Proof. unfold encode_char. repeat match goal with |- context [if ?b then _ else _] => destruct b end; cbn; lia. Qed.

(** One character is consumed at a time. *)
Lemma utf8_step c : scalar c -> forall f r, utf8_valid (S f) (encode_char c ++ r) = utf8_valid f r.
Proof.
  intros [B S] f r. unfold encode_char, utf8_valid, cont.
  destruct (c <? 0x80) eqn:E1; [cbn [app]; fold utf8_valid; now rewrite E1|].
  destruct (c <? 0x800) eqn:E2; [|destruct (c <? 0x10000) eqn:E3]; cbn [app]; fold utf8_valid.
  - replace (0xC0 + c / 64 <? 128) with false by lia.
    replace ((194 <=? 0xC0 + c / 64) && (0xC0 + c / 64 <=? 223)) with true by lia.
    replace ((128 <=? 0x80 + c mod 64) && (0x80 + c mod 64 <=? 191)) with true by lia. reflexivity.
  - replace (0xE0 + c / 4096 <? 128) with false by lia.
    replace ((194 <=? 0xE0 + c / 4096) && (0xE0 + c / 4096 <=? 223)) with false by lia.
    replace ((224 <=? 0xE0 + c / 4096) && (0xE0 + c / 4096 <=? 239)) with true by lia.
    match goal with |- ?b && _ = _ => replace b with true; [reflexivity|] end. lia.
  - replace (0xF0 + c / 262144 <? 128) with false by lia.
    replace ((194 <=? 0xF0 + c / 262144) && (0xF0 + c / 262144 <=? 223)) with false by lia.
    replace ((224 <=? 0xF0 + c / 262144) && (0xF0 + c / 262144 <=? 239)) with false by lia.
    replace ((240 <=? 0xF0 + c / 262144) && (0xF0 + c / 262144 <=? 244)) with true by lia.
    match goal with |- ?b && _ = _ => replace b with true; [reflexivity|] end. lia.
Qed.

Lemma utf8_front f l : utf8_valid (S f) l = true -> l <> [] ->
  exists c r, scalar c /\ l = encode_char c ++ r /\ utf8_valid f r = true.
Proof.
  intros H Hl. destruct l as [|a r]; [congruence|]. clear Hl. cbn in H. unfold cont in H.
  destruct (a <? 128) eqn:E0.
  { exists a, r. split; [unfold scalar; lia|]. split; [|exact H]. unfold encode_char. now rewrite E0. }
  destruct ((194 <=? a) && (a <=? 223)) eqn:E1.
  { destruct r as [|b r]; [discriminate|]. apply andb_true_iff in H as [Hb H].
    exists ((a - 192) * 64 + (b - 128)), r. split; [unfold scalar; lia|]. split; [|exact H].
    unfold encode_char. replace (_ <? 128) with false by lia. replace (_ <? 2048) with true by lia.
    cbn [app]. repeat f_equal; lia. }
  destruct ((224 <=? a) && (a <=? 239)) eqn:E2.
  { destruct r as [|b [|c r]]; try discriminate. apply andb_true_iff in H as [Hb H].
    exists ((a - 224) * 4096 + (b - 128) * 64 + (c - 128)), r. split; [unfold scalar; lia|]. split; [|exact H].
    unfold encode_char. replace (_ <? 128) with false by lia. replace (_ <? 2048) with false by lia.
    replace (_ <? 65536) with true by lia. cbn [app]. repeat f_equal; lia. }
  destruct ((240 <=? a) && (a <=? 244)) eqn:E3; [|discriminate].
  destruct r as [|b [|c [|d r]]]; try discriminate. apply andb_true_iff in H as [Hb H].
  exists ((a - 240) * 262144 + (b - 128) * 4096 + (c - 128) * 64 + (d - 128)), r. split; [unfold scalar; lia|]. split; [|exact H].
  unfold encode_char. replace (_ <? 128) with false by lia. replace (_ <? 2048) with false by lia.
  replace (_ <? 65536) with false by lia. cbn [app]. repeat f_equal; lia.
Qed.

Lemma utf8_nil f : utf8_valid f [] = true.
Proof. now destruct f. Qed.

Theorem utf8_check : forall l, is_utf8 l = true <-> utf8_text l.
Proof.
  intros l. unfold is_utf8. split.
  - assert (G : forall f l, (length l <= f)%nat -> utf8_valid f l = true -> utf8_text l).
    { clear. induction f as [|f IH]; intros l L H.
      - destruct l; [|cbn in L; lia]. exists []. split; [constructor|reflexivity].
      - destruct l as [|a l]; [exists []; split; [constructor|reflexivity]|].
        destruct (utf8_front f (a :: l) H) as (c & r & Sc & E & Hr); [discriminate|].
        rewrite E in L |- *. rewrite app_length in L. pose proof (encode_length c).
        destruct (IH r) as (cs & F & ->); [lia|exact Hr|]. exists (c :: cs). split; [now constructor|reflexivity]. }
    apply G. lia.
  - intros (cs & F & ->).
    assert (G : forall f, (length cs <= f)%nat -> utf8_valid f (flat_map encode_char cs) = true).
    { induction F as [|c cs Sc F IH]; intros f L; [apply utf8_nil|].
      destruct f as [|f]; [cbn in L; lia|]. cbn [flat_map]. rewrite utf8_step by auto. apply IH. cbn in L. lia. }
    apply G. clear. induction cs as [|c cs IH]; [cbn; lia|]. cbn [flat_map]. rewrite app_length. pose proof (encode_length c). cbn [length]. lia.
Qed.

Corollary utf8_check_false : forall l, is_utf8 l = false <-> ~ utf8_text l.
Proof. intros l. rewrite <- utf8_check. destruct (is_utf8 l); intuition congruence. Qed.

(** The surrogate D800, an overlong '/', and a truncated character are not text. *)
Example utf8_examples : utf8_text ([111; 107] ++ [0xC3; 0xA9; 0xE2; 0x82; 0xAC; 0xF0; 0x9F; 0x98; 0x80]) /\
  ~ utf8_text [0xED; 0xA0; 0x80] /\ ~ utf8_text [0xC0; 0xAF] /\ ~ utf8_text [0xE2; 0x82] /\ ~ utf8_text [0xF4; 0x90; 0x80; 0x80].
Proof. rewrite <- utf8_check, <- !utf8_check_false. repeat split. Qed.
