(** Proofs about the control interface. *)
From Coq Require Import List NArith ZArith Arith Bool Lia String ZifyBool ZifyNat ZifyN.
From Coq Require DecimalN.
From Verif Require Import Base BaseFacts TrackerModel TrackerProps RpcModel RpcUtf8 RpcSpec.
Import ListNotations.
Local Open Scope N_scope.
Ltac Zify.zify_post_hook ::= Z.div_mod_to_equations.

(** ** Printing and reading back *)

Lemma unhex_hex : forall d, d < 16 -> unhex (hex d) = d.
Proof.
  intros d H. unfold hex, unhex. destruct (d <? 10) eqn:E.
  - destruct (48 + d <? 58) eqn:E2; lia.
  - destruct (87 + d <? 58) eqn:E2; lia.
Qed.

Lemma read_escape : forall b r,
  read_string (escape b ++ r) = match read_string r with Some (s, rest) => Some (b :: s, rest) | None => None end.
Proof.
  intros b r. unfold escape.
  destruct (N.eqb_spec b 34) as [->|N1]; [reflexivity|].
  destruct (N.eqb_spec b 92) as [->|N2]; [reflexivity|].
  destruct (N.eqb_spec b 8) as [->|N3]; [reflexivity|].
  destruct (N.eqb_spec b 12) as [->|N4]; [reflexivity|].
  destruct (N.eqb_spec b 10) as [->|N5]; [reflexivity|].
  destruct (N.eqb_spec b 13) as [->|N6]; [reflexivity|].
  destruct (N.eqb_spec b 9) as [->|N7]; [reflexivity|].
  destruct (b <? 32) eqn:E.
  - change (read_string ([92; 117; 48; 48; hex (b / 16); hex (b mod 16)] ++ r))
      with (match read_string r with
            | Some (s, rest) => Some (16 * unhex (hex (b / 16)) + unhex (hex (b mod 16)) :: s, rest)
            | None => None end).
    rewrite !unhex_hex by lia. replace (16 * (b / 16) + b mod 16) with b by lia. reflexivity.
  - cbn [app read_string]. destruct (N.eqb_spec b 34); [congruence|]. destruct (N.eqb_spec b 92); [congruence|].
    reflexivity.
Qed.

Lemma read_print_string : forall s r, read_string (flat_map escape s ++ 34 :: r) = Some (s, r).
Proof.
  induction s as [|b s IH]; intros r; [reflexivity|].
  cbn [flat_map]. rewrite <- app_assoc, read_escape, IH. reflexivity.
Qed.

Definition is_digit (b : byte) : bool := (48 <=? b) && (b <=? 57).
Definition no_digit (r : list byte) : Prop := match r with b :: _ => is_digit b = false | [] => True end.

Lemma read_digits_stop : forall r, no_digit r -> read_digits r = (Decimal.Nil, r).
Proof.
  intros [|b r] H; [reflexivity|]. cbn [read_digits no_digit] in *. destruct (read_digits r) as [u rest].
  destruct (N.ltb_spec b 48); [|destruct (N.ltb_spec 57 b); [|unfold is_digit in H; lia]].
  - destruct b as [|p]; [reflexivity|]. repeat (destruct p as [p|p|]; try reflexivity; try lia).
  - destruct b as [|p]; [reflexivity|]. repeat (destruct p as [p|p|]; try reflexivity; try lia).
Qed.

Lemma read_print_uint : forall u r, no_digit r -> read_digits (print_uint u ++ r) = (u, r).
Proof.
  induction u; intros r H; [exact (read_digits_stop r H)|..];
    cbn [print_uint app read_digits]; rewrite IHu by assumption; reflexivity.
Qed.

Lemma print_uint_head : forall u, u <> Decimal.Nil -> exists b r, print_uint u = b :: r /\ is_digit b = true.
Proof. intros u H. destruct u; [congruence|..]; cbn [print_uint]; eexists; eexists; split; reflexivity. Qed.

Lemma to_uint_nonnil : forall n, N.to_uint n <> Decimal.Nil.
Proof.
  intros n H. destruct n as [|p]; [discriminate|].
  assert (E := DecimalN.Unsigned.of_to (Npos p)). rewrite H in E. discriminate.
Qed.

Lemma print_num_head : forall n, exists b r, print_num n = b :: r /\ is_digit b = true.
Proof. intros n. apply print_uint_head, to_uint_nonnil. Qed.

Lemma print_head : forall v, exists b r, print v = b :: r /\
  (b = 110 \/ b = 34 \/ b = 91 \/ b = 123 \/ is_digit b = true \/ b = 45).
Proof.
  destruct v as [|n|n|s|l|l]; cbn [print]; unfold print_string.
  - eexists; eexists; split; [reflexivity|]; auto.
  - destruct (print_num_head n) as (b & r & -> & H). eexists; eexists; split; [reflexivity|]; auto 8.
  - eexists; eexists; split; [reflexivity|]; auto 7.
  - eexists; eexists; split; [reflexivity|]; auto 8.
  - eexists; eexists; split; [reflexivity|]; auto 8.
  - eexists; eexists; split; [reflexivity|]; auto 8.
Qed.

(** Elements with a comma before each. *)
Definition commas (l : list (list byte)) : list byte := flat_map (cons 44) l.
Lemma join_commas : forall x l, 44 :: join_comma (x :: l) = commas (x :: l).
Proof.
  intros x l. revert x. induction l as [|y l IH]; intros x.
  - cbn. now rewrite app_nil_r.
  - change (join_comma (x :: y :: l)) with (x ++ 44 :: join_comma (y :: l)). rewrite IH. reflexivity.
Qed.

Lemma first_comma_join : forall close l r,
  (forall x, In x l -> exists b y, x = b :: y /\ b <> close) ->
  first_comma close (join_comma l ++ close :: r) = commas l ++ close :: r.
Proof.
  intros close l r H. destruct l as [|x l].
  - cbn [join_comma commas flat_map app first_comma]. now rewrite N.eqb_refl.
  - destruct (H x) as (b & y & -> & Hb); [now left|].
    rewrite <- join_commas. destruct l as [|z l].
    + cbn [join_comma app first_comma]. destruct (N.eqb_spec b close); [congruence|reflexivity].
    + cbn [join_comma app first_comma]. destruct (N.eqb_spec b close); [congruence|reflexivity].
Qed.

Lemma read_seq_commas : forall A (rd : list byte -> option (A * list byte)) (pr : A -> list byte) close l n r,
  close <> 44 -> is_digit close = false ->
  (forall x rest, In x l -> no_digit rest -> rd (pr x ++ rest) = Some (x, rest)) ->
  (List.length l < n)%nat ->
  read_seq rd close n (commas (map pr l) ++ close :: r) = Some (l, r).
Proof.
  intros A rd pr close l. induction l as [|x l IH]; intros n r Hc Hd Hrd Hn; (destruct n as [|n]; [lia|]).
  - cbn [map commas flat_map app read_seq]. now rewrite N.eqb_refl.
  - cbn [map commas flat_map app read_seq]. destruct (N.eqb_spec 44 close) as [E|_]; [congruence|].
    rewrite N.eqb_refl. rewrite <- app_assoc.
    rewrite Hrd.
    + change (flat_map (cons 44) (map pr l)) with (commas (map pr l)). rewrite IH; auto.
      * intros y rest Hy. apply Hrd. now right.
      * cbn in Hn. lia.
    + now left.
    + destruct l; cbn; [exact Hd|reflexivity].
Qed.

Lemma join_comma_length : forall l x, In x l -> (List.length x <= List.length (join_comma l))%nat.
Proof.
  induction l as [|y l IH]; intros x H; [destruct H|].
  destruct l as [|z l].
  - destruct H as [->|[]]. cbn. lia.
  - change (join_comma (y :: z :: l)) with (y ++ 44 :: join_comma (z :: l)).
    rewrite app_length. cbn [List.length]. destruct H as [->|H]; [lia|]. specialize (IH x H). lia.
Qed.

Lemma join_comma_count : forall l, (List.length l <= S (List.length (join_comma l)))%nat.
Proof.
  induction l as [|y l IH]; [cbn; lia|]. destruct l as [|z l]; [cbn; lia|].
  change (join_comma (y :: z :: l)) with (y ++ 44 :: join_comma (z :: l)).
  rewrite app_length. cbn [List.length] in *. lia.
Qed.

Definition print_pair (kv : list byte * json) : list byte := print_string (fst kv) ++ 58 :: print (snd kv).

Lemma read_print : forall fuel v rest, (List.length (print v) <= fuel)%nat -> no_digit rest ->
  read_json fuel (print v ++ rest) = Some (v, rest).
Proof.
  induction fuel as [|f IH]; intros v rest Hf Hr.
  { destruct (print_head v) as (b & r & E & _). rewrite E in Hf. cbn in Hf. lia. }
  destruct v as [|n|n|s|l|l].
  - reflexivity.
  - cbn [print] in *. destruct (print_num_head n) as (b & r & E & Hb).
    assert (Ed : read_digits (print_num n ++ rest) = (N.to_uint n, rest)) by now apply read_print_uint.
    rewrite E in *. cbn [app read_json] in *.
    unfold is_digit in Hb.
    destruct (N.eqb_spec b 110); [lia|]. destruct (N.eqb_spec b 34); [lia|].
    destruct (N.eqb_spec b 91); [lia|]. destruct (N.eqb_spec b 123); [lia|]. destruct (N.eqb_spec b 45); [lia|].
    rewrite Ed. pose proof (to_uint_nonnil n) as Hn.
    destruct (N.to_uint n) eqn:En; [congruence|..]; rewrite <- En, DecimalN.Unsigned.of_to; reflexivity.
  - cbn [print app read_json] in *.
    assert (Ed : read_digits (print_num n ++ rest) = (N.to_uint n, rest)) by now apply read_print_uint.
    change (45 =? 110) with false. change (45 =? 34) with false. change (45 =? 91) with false.
    change (45 =? 123) with false. change (45 =? 45) with true. cbv iota. rewrite Ed.
    pose proof (to_uint_nonnil n) as Hn.
    destruct (N.to_uint n) eqn:En; [congruence|..]; rewrite <- En, DecimalN.Unsigned.of_to; reflexivity.
  - cbn [print]. unfold print_string. cbn [app read_json]. change (34 =? 110) with false. change (34 =? 34) with true.
    cbv iota. rewrite <- app_assoc. cbn [app]. rewrite read_print_string. reflexivity.
  - cbn [print] in *. cbn [app read_json].
    change (91 =? 110) with false. change (91 =? 34) with false. change (91 =? 91) with true. cbv iota.
    rewrite <- app_assoc. cbn [app]. rewrite first_comma_join.
    + rewrite (read_seq_commas json (read_json f) print); auto; try discriminate.
      * intros x rest' Hx Hn. apply IH; auto.
        apply (in_map print) in Hx. apply join_comma_length in Hx. cbn in Hf. rewrite app_length in Hf. lia.
      * cbn [List.length]. rewrite app_length. pose proof (join_comma_count (map print l)) as Hc.
        rewrite map_length in Hc. cbn [List.length]. lia.
    + intros x Hx. apply in_map_iff in Hx. destruct Hx as (v & <- & _).
      destruct (print_head v) as (b & r & -> & Hb). exists b, r. split; [reflexivity|].
      unfold is_digit in Hb. lia.
  - cbn [print] in *. change (fun kv : list byte * json => print_string (fst kv) ++ 58 :: print (snd kv)) with print_pair in *.
    cbn [app read_json].
    change (123 =? 110) with false. change (123 =? 34) with false. change (123 =? 91) with false.
    change (123 =? 123) with true. cbv iota.
    rewrite <- app_assoc. cbn [app]. rewrite first_comma_join.
    + rewrite (read_seq_commas (list byte * json) (read_pair (read_json f)) print_pair); auto; try discriminate.
      * intros [k v] rest' Hx Hn. unfold print_pair, read_pair, print_string. cbn [fst snd app expect].
        change (34 =? 34) with true. cbv iota. rewrite <- !app_assoc. cbn [app]. rewrite read_print_string.
        cbn [expect]. change (58 =? 58) with true. cbv iota.
        rewrite IH; auto.
        apply (in_map print_pair) in Hx. apply join_comma_length in Hx. cbn in Hf. rewrite app_length in Hf.
        unfold print_pair in Hx at 1. cbn [fst snd] in Hx. rewrite app_length in Hx. cbn [List.length] in Hx. lia.
      * cbn [List.length]. rewrite app_length. pose proof (join_comma_count (map print_pair l)) as Hc.
        rewrite map_length in Hc. cbn [List.length]. lia.
    + intros x Hx. apply in_map_iff in Hx. destruct Hx as (kv & <- & _).
      exists 34, (flat_map escape (fst kv) ++ [34] ++ 58 :: print (snd kv)). split; [|discriminate].
      unfold print_pair, print_string. cbn [app]. rewrite <- app_assoc. reflexivity.
Qed.

Theorem decode_print : forall v, decode (print v) = Some v.
Proof.
  intros v. unfold decode. rewrite <- (app_nil_r (print v)) at 2.
  rewrite read_print; [reflexivity|lia|exact Logic.I].
Qed.

(** ** No newline inside an answer *)

Lemma escape_no_newline : forall b, ~ In 10 (escape b).
Proof.
  intros b H. unfold escape in H.
  destruct (b =? 34); [cbn in H; lia|]. destruct (b =? 92); [cbn in H; lia|].
  destruct (b =? 8); [cbn in H; lia|]. destruct (b =? 12); [cbn in H; lia|].
  destruct (N.eqb_spec b 10) as [|N5]; [cbn in H; lia|].
  destruct (b =? 13); [cbn in H; lia|]. destruct (b =? 9); [cbn in H; lia|].
  destruct (b <? 32).
  - cbn [In] in H. unfold hex in H.
    destruct (b / 16 <? 10) eqn:E1; destruct (b mod 16 <? 10) eqn:E2; lia.
  - cbn in H. lia.
Qed.
Lemma print_string_no_newline : forall s, ~ In 10 (print_string s).
Proof.
  intros s H. unfold print_string in H. destruct H as [H|H]; [lia|].
  apply in_app_iff in H. destruct H as [H|H]; [|cbn in H; lia].
  apply in_flat_map in H. destruct H as (b & _ & H). now apply escape_no_newline in H.
Qed.
Lemma join_comma_in : forall l b, In b (join_comma l) -> b = 44 \/ exists x, In x l /\ In b x.
Proof.
  induction l as [|y l IH]; intros b H; [destruct H|]. destruct l as [|z l].
  - right. exists y. split; [now left|exact H].
  - change (join_comma (y :: z :: l)) with (y ++ 44 :: join_comma (z :: l)) in H.
    apply in_app_iff in H. destruct H as [H|[<-|H]]; auto.
    + right. exists y. split; [now left|exact H].
    + destruct (IH b H) as [->|(x & Hx & Hb)]; auto. right. exists x. split; [now right|exact Hb].
Qed.
Lemma print_uint_no_newline : forall u, ~ In 10 (print_uint u).
Proof. induction u; cbn [print_uint In]; intros H; [exact H|..]; (destruct H as [H|H]; [lia|auto]). Qed.

Lemma print_no_newline_len : forall n v, (List.length (print v) <= n)%nat -> ~ In 10 (print v).
Proof.
  induction n as [|n IH]; intros v Hn H.
  { destruct (print v); [destruct H|cbn in Hn; lia]. }
  destruct v as [|m|m|s|l|l]; cbn [print] in *.
  - cbn in H. lia.
  - now apply print_uint_no_newline in H.
  - destruct H as [H|H]; [lia|]. now apply print_uint_no_newline in H.
  - now apply print_string_no_newline in H.
  - destruct H as [H|H]; [lia|]. apply in_app_iff in H. destruct H as [H|H]; [|cbn in H; lia].
    apply join_comma_in in H. destruct H as [H|(x & Hx & Hb)]; [lia|].
    assert (Hl := join_comma_length _ _ Hx). cbn [List.length] in Hn. rewrite app_length in Hn.
    apply in_map_iff in Hx. destruct Hx as (v & <- & _). apply (IH v); auto. lia.
  - destruct H as [H|H]; [lia|]. apply in_app_iff in H. destruct H as [H|H]; [|cbn in H; lia].
    apply join_comma_in in H. destruct H as [H|(x & Hx & Hb)]; [lia|].
    assert (Hl := join_comma_length _ _ Hx). cbn [List.length] in Hn. rewrite app_length in Hn.
    apply in_map_iff in Hx. destruct Hx as ((k & v) & <- & _). cbn [fst snd] in *.
    apply in_app_iff in Hb. destruct Hb as [Hb|[Hb|Hb]]; [now apply print_string_no_newline in Hb|lia|].
    rewrite app_length in Hl. cbn [List.length] in Hl. apply (IH v); auto. lia.
Qed.
Lemma print_no_newline : forall v, ~ In 10 (print v).
Proof. intros v. apply (print_no_newline_len (List.length (print v))). lia. Qed.

Lemma cut_line : forall l cur r, ~ In 10 l -> cut cur (l ++ 10 :: r) = (rev cur ++ l) :: cut [] r.
Proof.
  induction l as [|b l IH]; intros cur r H.
  - cbn [app cut]. change (10 =? 10) with true. cbv iota. now rewrite app_nil_r.
  - cbn [app cut]. destruct (N.eqb_spec b 10) as [->|_]; [destruct H; now left|].
    rewrite IH; [|intros Hi; apply H; now right]. cbn [rev]. rewrite <- app_assoc. reflexivity.
Qed.

Lemma cut_payloads : forall vs, cut [] (flat_map payload vs) = map print vs.
Proof.
  induction vs as [|v vs IH]; [reflexivity|].
  cbn [flat_map map]. unfold payload at 1. rewrite <- app_assoc. cbn [app].
  rewrite cut_line; [|apply print_no_newline]. cbn [rev app]. now rewrite IH.
Qed.

(** ** Lines *)

Lemma read_line_line : forall l r, ~ In 10 l -> read_line (l ++ 10 :: r) = (l ++ [10], r).
Proof.
  induction l as [|b l IH]; intros r H; [reflexivity|].
  cbn [app read_line]. destruct (N.eqb_spec b 10) as [->|_]; [destruct H; now left|].
  rewrite IH; [reflexivity|]. intros Hi. apply H. now right.
Qed.
Lemma read_line_last : forall l, ~ In 10 l -> read_line l = (l, []).
Proof.
  induction l as [|b l IH]; intros H; [reflexivity|].
  cbn [read_line]. destruct (N.eqb_spec b 10) as [->|_]; [destruct H; now left|].
  rewrite IH; [reflexivity|]. intros Hi. apply H. now right.
Qed.

Lemma first_newline : forall l, In 10 l -> exists a r, l = a ++ 10 :: r /\ ~ In 10 a.
Proof.
  induction l as [|b l IH]; intros H; [destruct H|].
  destruct (N.eqb_spec b 10) as [->|Hb]; [exists [], l; auto|].
  destruct H as [H|H]; [congruence|]. destruct (IH H) as (a & r & -> & Ha).
  exists (b :: a), r. split; [reflexivity|]. intros [E|E]; auto.
Qed.

Lemma lines_exist : forall l, exists ls, lines l ls.
Proof.
  intros l. remember (List.length l) as n eqn:E. revert l E.
  induction n as [n IH] using lt_wf_ind. intros l ->.
  destruct (in_dec N.eq_dec 10 l) as [H|H].
  - destruct (first_newline l H) as (a & r & -> & Ha).
    destruct (IH (List.length r)) with (l := r) as [ls Hls]; auto.
    { rewrite app_length. cbn. lia. }
    eexists. constructor; eassumption.
  - destruct l as [|b l]; [exists []; constructor|]. exists [b :: l]. constructor; [discriminate|auto].
Qed.

Lemma lines_concat : forall l ls, lines l ls -> List.concat ls = l.
Proof.
  induction 1 as [|l Hl Hn|l rest ls Hn H IH]; [reflexivity|apply app_nil_r|].
  cbn [List.concat]. rewrite IH, <- app_assoc. reflexivity.
Qed.

(** ** Trimming *)

Lemma strip_prefix_spec : forall p l r, strip_prefix p l = Some r <-> l = p ++ r.
Proof.
  induction p as [|a p IH]; intros l r; cbn [strip_prefix app].
  - split; [now intros [= ->]|now intros ->].
  - destruct l as [|b l]; [split; discriminate|].
    destruct (N.eqb_spec a b) as [->|Hn].
    + rewrite IH. split; [now intros ->|now intros [= ->]].
    + split; [discriminate|]. intros [= E _]. congruence.
Qed.

Lemma strip_one_spec : forall ws l,
  match strip_one ws l with
  | Some r => exists w, In w ws /\ l = w ++ r
  | None => forall w, In w ws -> ~ starts_with w l
  end.
Proof.
  induction ws as [|w ws IH]; intros l; cbn [strip_one]; [intros w []|].
  destruct (strip_prefix w l) as [r|] eqn:E.
  - exists w. split; [now left|]. now apply strip_prefix_spec.
  - specialize (IH l). destruct (strip_one ws l) as [r|].
    + destruct IH as (w' & Hw & ->). exists w'. split; [now right|reflexivity].
    + intros w' [<-|Hw]; [|now apply IH]. intros [r Hr].
      apply strip_prefix_spec in Hr. congruence.
Qed.

Lemma strip_spec : forall ws, (forall w, In w ws -> w <> []) ->
  forall fuel l, (List.length l <= fuel)%nat ->
  exists pre, Forall (fun w => In w ws) pre /\ l = List.concat pre ++ strip fuel ws l /\
    (forall w, In w ws -> ~ starts_with w (strip fuel ws l)).
Proof.
  intros ws Hws. induction fuel as [|f IH]; intros l Hl.
  - exists []. split; [constructor|]. split; [reflexivity|].
    intros w Hw [r Hr]. cbn [strip] in Hr. destruct l; [|cbn in Hl; lia].
    destruct w; [now apply (Hws [])|discriminate].
  - cbn [strip]. assert (S := strip_one_spec ws l). destruct (strip_one ws l) as [r|].
    + destruct S as (w & Hw & ->).
      destruct (IH r) as (pre & H1 & H2 & H3).
      { rewrite app_length in Hl. specialize (Hws w Hw). destruct w; [congruence|cbn in Hl; lia]. }
      exists (w :: pre). split; [constructor; auto|]. split; [|exact H3].
      cbn [List.concat]. rewrite <- app_assoc, <- H2. reflexivity.
    + exists []. split; [constructor|]. split; [reflexivity|exact S].
Qed.

Lemma white_nonempty : forall w, In w white_space -> w <> [].
Proof. intros w H ->. cbn in H. repeat (destruct H as [H|H]; [discriminate|]). exact H. Qed.

Lemma rev_concat : forall (ls : list (list byte)), rev (List.concat ls) = List.concat (rev (map (@rev byte) ls)).
Proof.
  induction ls as [|l ls IH]; [reflexivity|].
  cbn [List.concat map rev]. rewrite rev_app_distr, IH, concat_app. cbn. now rewrite app_nil_r.
Qed.

Lemma trim_start_spec : forall l, exists a, blank a /\ l = a ++ trim_start l /\
  forall w, In w white_space -> ~ starts_with w (trim_start l).
Proof.
  intros l. destruct (strip_spec white_space white_nonempty (List.length l) l (le_n _)) as (pre & H1 & H2 & H3).
  exists (List.concat pre). split; [exists pre; auto|]. split; [exact H2|exact H3].
Qed.

Lemma trim_end_spec : forall l, exists b, blank b /\ l = trim_end l ++ b /\
  forall w, In w white_space -> ~ ends_with w (trim_end l).
Proof.
  intros l. unfold trim_end.
  destruct (strip_spec (map (@rev byte) white_space)) with (fuel := List.length l) (l := rev l) as (pre & H1 & H2 & H3).
  { intros w Hw. apply in_map_iff in Hw. destruct Hw as (w' & <- & Hw).
    apply white_nonempty in Hw. intros E. apply Hw. rewrite <- (rev_involutive w'), E. reflexivity. }
  { now rewrite rev_length. }
  set (t := strip _ _ _) in *.
  exists (rev (List.concat pre)). split; [|split].
  - exists (rev (map (@rev byte) pre)). split; [apply rev_concat|].
    apply Forall_rev. apply Forall_map. eapply Forall_impl; [|exact H1].
    intros w Hw. apply in_map_iff in Hw. destruct Hw as (w' & <- & Hw). now rewrite rev_involutive.
  - rewrite <- rev_app_distr, <- H2. now rewrite rev_involutive.
  - intros w Hw [r Hr]. apply (H3 (rev w)); [now apply in_map|].
    exists (rev r). rewrite <- rev_app_distr, <- Hr. now rewrite rev_involutive.
Qed.

Lemma blank_app : forall a b, blank a -> blank b -> blank (a ++ b).
Proof.
  intros a b (x & -> & Hx) (y & -> & Hy). exists (x ++ y). split; [now rewrite concat_app|].
  now apply Forall_app.
Qed.

Lemma blank_nil : blank [].
Proof. exists []. split; [reflexivity|constructor]. Qed.

Lemma trim_text : forall l, trim l <> [] -> text_of l (trim l).
Proof.
  intros l Hne. unfold trim in *.
  destruct (trim_start_spec l) as (a & Ha & Ea & Sa).
  destruct (trim_end_spec (trim_start l)) as (b & Hb & Eb & Sb).
  exists a, b. split; [rewrite Ea at 1; rewrite Eb at 1; reflexivity|]. split; [exact Ha|]. split; [exact Hb|].
  intros w Hw. split; [|now apply Sb].
  intros [r Hr]. apply (Sa w Hw). rewrite Eb, Hr. exists (r ++ b). now rewrite <- app_assoc.
Qed.

Lemma trim_blank : forall l, trim l = [] -> blank l.
Proof.
  intros l E. unfold trim in E.
  destruct (trim_start_spec l) as (a & Ha & Ea & Sa).
  destruct (trim_end_spec (trim_start l)) as (b & Hb & Eb & Sb).
  rewrite E in Eb. cbn in Eb. rewrite Ea, Eb. now apply blank_app.
Qed.

(** A blank line trims to nothing.  White-space characters are not prefixes of
    one another, so stripping them takes whole characters. *)
Fixpoint is_prefix (p l : list byte) : bool :=
  match p, l with
  | [], _ => true
  | a :: p', b :: l' => (a =? b) && is_prefix p' l'
  | _, _ => false
  end.
Lemma prefix_total : forall a b x y, a ++ x = b ++ y -> is_prefix a b = true \/ is_prefix b a = true.
Proof.
  induction a as [|c a IH]; intros b x y H; [now left|]. destruct b as [|d b]; [now right|].
  cbn in H. injection H as -> H. cbn [is_prefix]. rewrite N.eqb_refl. cbn. eauto.
Qed.
Definition prefix_free (ws : list (list byte)) : bool :=
  forallb (fun v => forallb (fun w => implb (is_prefix v w) (bytes_eqb v w)) ws) ws.
Lemma prefix_free_spec : forall ws, prefix_free ws = true -> forall v w x y, In v ws -> In w ws ->
  v ++ x = w ++ y -> v = w /\ x = y.
Proof.
  intros ws H v w x y Hv Hw E. unfold prefix_free in H. rewrite forallb_forall in H.
  assert (v = w).
  { destruct (prefix_total v w x y E) as [P|P].
    - specialize (H v Hv). rewrite forallb_forall in H. specialize (H w Hw). rewrite P in H. cbn in H.
      now apply bytes_eqb_spec.
    - specialize (H w Hw). rewrite forallb_forall in H. specialize (H v Hv). rewrite P in H. cbn in H.
      symmetry. now apply bytes_eqb_spec. }
  subst. split; [reflexivity|]. now apply app_inv_head in E.
Qed.

Lemma strip_blank : forall ws, prefix_free ws = true -> (forall w, In w ws -> w <> []) ->
  forall pre fuel, Forall (fun w => In w ws) pre -> (List.length (List.concat pre) <= fuel)%nat ->
  strip fuel ws (List.concat pre) = [].
Proof.
  intros ws Hf Hws. induction pre as [|w pre IH]; intros fuel Hp Hl.
  - cbn [List.concat]. destruct fuel; [reflexivity|]. cbn [strip].
    assert (S := strip_one_spec ws []). destruct (strip_one ws []) as [r|]; [|reflexivity].
    destruct S as (w & Hw & E). destruct w; [now apply Hws in Hw|discriminate].
  - apply Forall_cons_iff in Hp. destruct Hp as [Hw Hp]. cbn [List.concat] in *.
    assert (Hne := Hws w Hw). destruct fuel as [|f].
    { rewrite app_length in Hl. destruct w; [congruence|cbn in Hl; lia]. }
    cbn [strip]. assert (S := strip_one_spec ws (w ++ List.concat pre)).
    destruct (strip_one ws (w ++ List.concat pre)) as [r|].
    + destruct S as (w' & Hw' & E). destruct (prefix_free_spec ws Hf _ _ _ _ Hw Hw' E) as [_ <-].
      apply IH; auto. rewrite app_length in Hl. destruct w; [congruence|cbn in Hl; lia].
    + destruct (S w Hw). exists (List.concat pre). reflexivity.
Qed.

Lemma blank_trim : forall l, blank l -> trim l = [].
Proof.
  intros l (ws & -> & H). unfold trim, trim_start.
  rewrite (strip_blank white_space); auto; exact white_nonempty.
Qed.

Lemma blank_iff : forall l, blank l <-> trim l = [].
Proof. intros l. split; [apply blank_trim|apply trim_blank]. Qed.

(** ** Answers *)

Definition stripes_sane (si : situation) : Prop :=
  forall r, si_reporter si = Some r -> sr_stripe_sectors r <> 0.

Lemma snapshots_ok : forall qs,
  queue_snapshots (map (fun q => tcalls (tracker_new (q_size q)) (q_history q)) qs) = Ok (map queue_json qs).
Proof.
  induction qs as [|q qs IH]; [reflexivity|]. cbn [map queue_snapshots].
  destruct (C40_snapshot (q_size q) (q_history q)) as (l & E & Hl). rewrite E. cbn [bindr]. rewrite IH. cbn [bindr].
  f_equal. f_equal. unfold queue_json. rewrite <- Hl, map_map. f_equal. apply map_ext.
  intros [[[] o] n]; reflexivity.
Qed.

Lemma process_answer : forall si c, stripes_sane si ->
  exists v, process_request c (seen si) = Ok v /\ answer si (inl c) v.
Proof.
  intros si c Hs. unfold process_request.
  destruct (bytes_eqb c (text "version")) eqn:E1.
  { apply bytes_eqb_spec in E1. subst. eexists. split; [reflexivity|constructor]. }
  destruct (bytes_eqb c (text "status")) eqn:E2.
  { apply bytes_eqb_spec in E2. subst. cbn [seen st_reporter].
    destruct (si_reporter si) as [r|] eqn:Er.
    - unfold report. destruct (N.eqb_spec (sr_stripe_sectors r) 0) as [E|Hz]; [now apply Hs in Er|].
      cbn [bindr]. eexists. split; [reflexivity|].
      apply (a_status si r); [exact Er|]. unfold just_covers.
      set (s := sr_stripe_sectors r) in *. set (t := sr_target_sectors r) in *. clearbody s t. clear - Hz.
      assert (Hm := N.div_mod t s Hz). assert (Hl := N.mod_lt t s Hz).
      set (q := t / s) in *. set (m := t mod s) in *. clearbody q m.
      destruct (N.eqb_spec m 0) as [E|E]; split; [nia| |nia|].
      + intros u Hu. destruct (N.le_gt_cases q u) as [Hle|Hgt]; [exact Hle|]. exfalso. nia.
      + intros u Hu. destruct (N.le_gt_cases (q + 1) u) as [Hle|Hgt]; [exact Hle|]. exfalso. nia.
    - cbn [bindr]. eexists. split; [reflexivity|]. now constructor. }
  destruct (bytes_eqb c (text "queues")) eqn:E3.
  { apply bytes_eqb_spec in E3. subst. cbn [seen st_trackers]. rewrite snapshots_ok. cbn [bindr].
    eexists. split; [reflexivity|constructor]. }
  destruct (bytes_eqb c (text "stats")) eqn:E4.
  { apply bytes_eqb_spec in E4. subst. eexists. split; [reflexivity|].
    cbn [seen st_trackers]. rewrite map_map.
    replace (map (fun x => stats_json (tcalls (tracker_new (q_size x)) (q_history x))) (si_queues si))
      with (map totals_json (si_queues si)); [constructor|].
    apply map_ext. intros q. unfold stats_json. now rewrite C40_counters. }
  eexists. split; [reflexivity|]. constructor. intros H. cbn [known In] in H.
  destruct H as [<-|[<-|[<-|[<-|[]]]]]; vm_compute in *; discriminate.
Qed.

Lemma respond_answer : forall parse t si, stripes_sane si ->
  exists v, respond parse t (seen si) = Ok v /\ answer si (parse t) v.
Proof.
  intros parse t si Hs. unfold respond. destruct (parse t) as [c|e].
  - now apply process_answer.
  - eexists. split; [reflexivity|constructor].
Qed.

(** ** The text of a line is determined *)

Lemma blanks_unique : forall ws, prefix_free ws = true ->
  forall p p' x x', Forall (fun w => In w ws) p -> Forall (fun w => In w ws) p' ->
  (forall w, In w ws -> ~ starts_with w x /\ ~ starts_with w x') ->
  List.concat p ++ x = List.concat p' ++ x' -> x = x'.
Proof.
  intros ws Hf. induction p as [|w p IH]; intros p' x x' Hp Hp' Hs E.
  - destruct p' as [|w' p']; [exact E|]. apply Forall_cons_iff in Hp'. destruct Hp' as [Hw' _].
    destruct (Hs w' Hw') as [H _]. destruct H. cbn in E. rewrite <- app_assoc in E. eexists. exact E.
  - apply Forall_cons_iff in Hp. destruct Hp as [Hw Hp].
    destruct p' as [|w' p'].
    + destruct (Hs w Hw) as [_ H]. destruct H. cbn in E. rewrite <- app_assoc in E. eexists. symmetry. exact E.
    + apply Forall_cons_iff in Hp'. destruct Hp' as [Hw' Hp']. cbn [List.concat] in E. rewrite <- !app_assoc in E.
      destruct (prefix_free_spec ws Hf _ _ _ _ Hw Hw' E) as [_ E']. apply (IH p'); auto.
Qed.

(** The first byte of a white-space character is not a later byte of one. *)
Definition heads : list byte := flat_map (fun w => match w with b :: _ => [b] | [] => [] end) white_space.
Definition tails : list byte := flat_map (fun w => match w with _ :: r => r | [] => [] end) white_space.
Lemma heads_tails : forall b, In b heads -> In b tails -> False.
Proof.
  assert (H : forallb (fun b => negb (existsb (N.eqb b) tails)) heads = true) by reflexivity.
  intros b Hh Ht. rewrite forallb_forall in H. specialize (H b Hh).
  assert (E : existsb (N.eqb b) tails = true) by (apply existsb_exists; exists b; split; [exact Ht|apply N.eqb_refl]).
  rewrite E in H. discriminate.
Qed.

Lemma app_split : forall (w r t b : list byte), w ++ r = t ++ b ->
  (exists s, t = w ++ s) \/ (exists s, s <> [] /\ w = t ++ s /\ b = s ++ r).
Proof.
  induction w as [|c w IH]; intros r t b E.
  - left. exists t. reflexivity.
  - destruct t as [|d t].
    + right. exists (c :: w). split; [discriminate|]. split; [reflexivity|]. symmetry. exact E.
    + cbn in E. injection E as -> E. destruct (IH r t b E) as [[s ->]|(s & Hs & -> & ->)].
      * left. exists s. reflexivity.
      * right. exists s. auto.
Qed.

Lemma text_then_blank : forall t b, t <> [] -> blank b ->
  (forall w, In w white_space -> ~ starts_with w t) ->
  forall w, In w white_space -> ~ starts_with w (t ++ b).
Proof.
  intros t b Ht (bs & -> & Hb) Hs w Hw [r E]. symmetry in E.
  destruct (app_split w r t _ E) as [[s Hx]|(s & Hne & Ew & Eb)].
  - apply (Hs w Hw). exists s. exact Hx.
  - destruct s as [|c s]; [congruence|].
    destruct bs as [|v bs]; [discriminate|]. apply Forall_cons_iff in Hb. destruct Hb as [Hv _].
    assert (Hne' := white_nonempty v Hv). destruct v as [|d v]; [congruence|].
    cbn in Eb. injection Eb as -> _.
    apply (heads_tails c).
    + unfold heads. apply in_flat_map. exists (c :: v). split; [exact Hv|now left].
    + unfold tails. apply in_flat_map. exists w. split; [exact Hw|]. subst w.
      destruct t as [|e t]; [congruence|]. cbn. apply in_or_app. right. now left.
Qed.

Lemma text_unique : forall l t t', ~ blank l -> text_of l t -> text_of l t' -> t = t'.
Proof.
  intros l t t' Hl (a & b & E & Ha & Hb & Hs) (a' & b' & E' & Ha' & Hb' & Hs').
  assert (Ht : t <> []) by (intros ->; apply Hl; rewrite E; now apply blank_app).
  assert (Ht' : t' <> []) by (intros ->; apply Hl; rewrite E'; now apply blank_app).
  destruct Ha as (p & -> & Hp). destruct Ha' as (p' & -> & Hp').
  assert (E1 : t ++ b = t' ++ b').
  { apply (blanks_unique white_space eq_refl p p'); auto.
    - intros w Hw. split; apply text_then_blank; auto; intros v Hv; [now apply Hs|now apply Hs'].
    - congruence. }
  destruct Hb as (q & -> & Hq). destruct Hb' as (q' & -> & Hq').
  apply (f_equal (@rev byte)) in E1. rewrite !rev_app_distr, !rev_concat in E1.
  rewrite <- (rev_involutive t), <- (rev_involutive t'). f_equal.
  assert (Hr : forall q0, Forall (fun w => In w white_space) q0 ->
            Forall (fun w => In w (map (@rev byte) white_space)) (rev (map (@rev byte) q0))).
  { intros q0 H0. apply Forall_rev, Forall_map. eapply Forall_impl; [|exact H0]. intros w Hw. now apply in_map. }
  apply (blanks_unique (map (@rev byte) white_space) eq_refl _ _ _ _ (Hr q Hq) (Hr q' Hq')); auto.
  intros w Hw. apply in_map_iff in Hw. destruct Hw as (v & <- & Hv).
  assert (Hx : forall t0, (forall w, In w white_space -> ~ starts_with w t0 /\ ~ ends_with w t0) ->
               ~ starts_with (rev v) (rev t0)).
  { intros t0 H0 [r Er]. apply (H0 v Hv). exists (rev r). rewrite <- (rev_involutive t0), Er, rev_app_distr.
    now rewrite rev_involutive. }
  split; apply Hx; auto.
Qed.

(** ** The connection *)

Definition served (parse : list byte -> list byte + list byte) (state_at : nat -> rpc_state)
    (send_fails : nat -> option nat) (input : list byte) (ls : list (list byte)) (fuel i : nat) : Prop :=
  exists rs, requests ls rs /\
    forall si, (forall j, state_at j = seen (si j)) -> (forall j, stripes_sane (si j)) ->
    exists vs, List.length vs = List.length rs /\
      (forall j t v, nth_error rs j = Some t -> nth_error vs j = Some v -> answer (si (i + j)%nat) (parse t) v) /\
      ((forall j, (i <= j)%nat -> send_fails j = None) ->
         handle_client parse state_at send_fails fuel i input = Ok (flat_map payload vs)) /\
      (forall k n, (k < List.length rs)%nat -> (forall j, (i <= j < i + k)%nat -> send_fails j = None) ->
         send_fails (i + k)%nat = Some n ->
         exists v, nth_error vs k = Some v /\
         handle_client parse state_at send_fails fuel i input =
           Ok (flat_map payload (firstn k vs) ++ firstn n (payload v))).

Lemma client_requests : forall parse state_at send_fails input ls, lines input ls ->
  forall fuel i, (List.length input < fuel)%nat -> served parse state_at send_fails input ls fuel i.
Proof.
  intros parse state_at send_fails input ls Hls.
  assert (Step : forall line rest ls, line <> [] -> read_line (line ++ rest) = (line, rest) ->
    (forall fuel i, (List.length rest < fuel)%nat -> served parse state_at send_fails rest ls fuel i) ->
    forall fuel i, (List.length (line ++ rest) < fuel)%nat ->
      served parse state_at send_fails (line ++ rest) (line :: ls) fuel i).
  { clear Hls ls input. intros line rest ls Hne Hrl IH fuel i Hfuel.
    destruct fuel as [|f]; [lia|]. unfold served. cbn [handle_client]. rewrite Hrl.
    assert (Hlen : (List.length rest < f)%nat).
    { rewrite app_length in Hfuel. destruct line; [congruence|cbn in Hfuel; lia]. }
    destruct line as [|b0 line0] eqn:Eline; [congruence|]. rewrite <- Eline in *. clear Eline b0 line0.
    destruct (is_utf8 line) eqn:Eu; cbn [negb].
    2:{ apply utf8_check_false in Eu. exists []. split; [now constructor|]. intros si _ _. exists []. split; [reflexivity|].
        split; [intros j t v Hj; destruct j; discriminate|]. split; [reflexivity|]. intros k n Hk. cbn in Hk. lia. }
    apply utf8_check in Eu.
    destruct (trim line) as [|c tr] eqn:Et.
    - destruct (IH f i Hlen) as (rs & Hrs & Hsi). exists rs. split; [|exact Hsi].
      apply req_blank; auto. now apply blank_iff.
    - destruct (IH f (S i) Hlen) as (rs & Hrs & Hsi). exists ((c :: tr) :: rs). split.
      { apply req_text; auto.
        - rewrite blank_iff, Et. discriminate.
        - rewrite <- Et. apply trim_text. rewrite Et. discriminate. }
      intros si Hst Hsane. destruct (Hsi si Hst Hsane) as (vs & Hl & Ha & Hall & Hpart).
      destruct (respond_answer parse (c :: tr) (si i) (Hsane i)) as (v & Ev & Hv).
      rewrite Hst, Ev. cbn [bindr].
      exists (v :: vs). split; [cbn; now rewrite Hl|]. split; [|split].
      + intros [|j] t u Ht Hu; cbn in Ht, Hu.
        * injection Ht as <-. injection Hu as <-. now rewrite Nat.add_0_r.
        * replace (i + S j)%nat with (S i + j)%nat by lia. now apply Ha.
      + intros Hs. rewrite (Hs i) by lia. rewrite Hall by (intros j Hj; apply Hs; lia). reflexivity.
      + intros k n Hk Hbefore Hfail. destruct k as [|k].
        * exists v. split; [reflexivity|]. rewrite Nat.add_0_r in Hfail. rewrite Hfail. reflexivity.
        * rewrite (Hbefore i) by lia.
          destruct (Hpart k n) as (u & Hu & E).
          -- cbn in Hk. lia.
          -- intros j Hj. apply Hbefore. lia.
          -- rewrite <- Hfail. f_equal. lia.
          -- exists u. split; [exact Hu|]. rewrite E. cbn [bindr firstn flat_map]. now rewrite app_assoc. }
  assert (Nil : forall fuel i, (List.length (@nil byte) < fuel)%nat -> served parse state_at send_fails [] [] fuel i).
  { intros fuel i Hf. destruct fuel as [|f]; [lia|]. exists []. split; [constructor|].
    intros si _ _. exists []. split; [reflexivity|]. split; [intros j t v Hj; destruct j; discriminate|].
    split; [reflexivity|]. intros k n Hk. cbn in Hk. lia. }
  induction Hls as [|l Hne Hn|l rest ls Hn Hls IH].
  - exact Nil.
  - assert (K := Step l [] [] Hne). rewrite app_nil_r in K. apply K; [|exact Nil]. now apply read_line_last.
  - replace (l ++ 10 :: rest) with ((l ++ [10]) ++ rest) by now rewrite <- app_assoc.
    apply (Step (l ++ [10]) rest ls).
    + destruct l; discriminate.
    + rewrite <- app_assoc. now apply read_line_line.
    + exact IH.
Qed.

Lemma requests_unique : forall ls rs rs', requests ls rs -> requests ls rs' -> rs = rs'.
Proof.
  intros ls rs rs' H0. revert rs'.
  induction H0 as [|l ls Hu|l ls rs Hu Hb H IH|l ls t rs Hu Hb Ht H IH]; intros rs' H'; inversion H'; subst;
    try congruence; try contradiction; auto.
  match goal with H2 : text_of l ?t2, H3 : requests ls ?r2 |- _ :: _ = ?t2 :: ?r2 =>
    rewrite (IH _ H3), (text_unique l t t2 Hb Ht H2) end. reflexivity.
Qed.
Lemma lines_unique : forall l ls ls', lines l ls -> lines l ls' -> ls = ls'.
Proof.
  intros l ls ls' H. revert ls'. induction H as [|l Hne Hn|l rest ls Hn H IH]; intros ls' H'; inversion H'; subst.
  - reflexivity.
  - congruence.
  - destruct l; discriminate.
  - congruence.
  - reflexivity.
  - destruct Hn. apply in_or_app. right. now left.
  - destruct l; discriminate.
  - destruct H1. apply in_or_app. right. now left.
  - assert (E : l0 ++ [10] = l ++ [10] /\ rest0 = rest).
    { assert (Ea := read_line_line l0 rest0 H1). assert (Eb := read_line_line l rest Hn).
      rewrite H0 in Ea. rewrite Ea in Eb. injection Eb as E1 E2. auto. }
    destruct E as [-> ->]. f_equal. now apply IH.
Qed.
