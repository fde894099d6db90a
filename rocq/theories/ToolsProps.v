(** C61: the listings of dump-metadata.  C62: the remote stripe shell. *)
From Coq Require Import List Arith NArith ZArith Bool Lia ZifyBool ZifyNat ZifyN String Sorted.
From Verif Require Import Base BaseFacts ListFacts MetadataModel RpcModel RpcSpec RpcProofs ToolsModel ToolsSpec PskProps.
Import ListNotations.
Local Open Scope N_scope.
Ltac Zify.zify_post_hook ::= Z.div_mod_to_equations.

(** ** C61 *)
Lemma range_one : forall a, range a a = [a].
Proof. intros a. unfold range. replace (N.to_nat (a + 1 - a)) with 1%nat by lia. cbn. f_equal. lia. Qed.

Lemma range_snoc : forall a b, a <= b -> range a (b + 1) = range a b ++ [b + 1].
Proof.
  intros a b H. unfold range. replace (N.to_nat (b + 1 + 1 - a)) with (S (N.to_nat (b + 1 - a))) by lia.
  rewrite seq_S, map_app. cbn [map]. do 2 f_equal. lia.
Qed.

(** The items a text consists of. *)
Inductive item := One (n : N) | Many (a b : N).
Definition item_text (i : item) : list byte :=
  match i with One n => print_num n | Many a b => print_num a ++ 45 :: print_num b end.
Definition item_nums (i : item) : list N := match i with One n => [n] | Many a b => range a b end.

Lemma item_text_length : forall i, (0 < List.length (item_text i))%nat.
Proof.
  intros [n|a b]; cbn [item_text]; [destruct (print_num_head n) as (x & r & -> & _)|destruct (print_num_head a) as (x & r & -> & _)];
    cbn [List.length app]; lia.
Qed.

Lemma read_num : forall n r, no_digit r -> exists u, read_digits (print_num n ++ r) = (u, r) /\ u <> Decimal.Nil /\ N.of_uint u = n.
Proof.
  intros n r H. exists (N.to_uint n). split; [now apply read_print_uint|]. split; [apply to_uint_nonnil|].
  apply DecimalN.Unsigned.of_to.
Qed.

Lemma read_items_join : forall items fuel, items <> [] ->
  (List.length (join_comma_space (map item_text items)) <= fuel)%nat ->
  read_items fuel (join_comma_space (map item_text items)) = Some (flat_map item_nums items).
Proof.
  induction items as [|i items IH]; intros fuel Hne Hf; [congruence|].
  assert (Hi := item_text_length i).
  set (tail := match items with [] => [] | _ => 44 :: 32 :: join_comma_space (map item_text items) end).
  assert (E : join_comma_space (map item_text (i :: items)) = item_text i ++ tail).
  { unfold tail. cbn [map join_comma_space]. destruct items as [|j r]; [now rewrite app_nil_r|reflexivity]. }
  rewrite E in *. rewrite app_length in Hf. destruct fuel as [|fuel]; [lia|].
  set (more := fun (r : list byte) (got : list N) =>
      match r with
      | [] => Some got
      | 44 :: 32 :: r' => match read_items fuel r' with Some rest => Some (got ++ rest) | None => None end
      | _ => None
      end).
  assert (Hm : forall got, more tail got = Some (got ++ flat_map item_nums items)).
  { intros got. unfold tail, more. destruct items as [|j r]; [cbn [flat_map]; now rewrite app_nil_r|].
    rewrite IH; [reflexivity|discriminate|].
    unfold tail in Hf. cbn [List.length] in Hf. lia. }
  assert (Ht : no_digit tail) by (unfold tail; destruct items; cbn; auto).
  cbn [flat_map]. destruct i as [n|a b]; cbn [item_text item_nums] in *.
  - destruct (read_num n tail Ht) as (u & Er & Hu & Eu). cbn [read_items]. fold more. rewrite Er.
    specialize (Hm [n]). unfold more, tail in *. destruct items; (destruct u; [congruence|..]; rewrite Eu; exact Hm).
  - rewrite <- app_assoc. cbn [app].
    destruct (read_num a (45 :: print_num b ++ tail) eq_refl) as (u & Er & Hu & Eu).
    destruct (read_num b tail Ht) as (v & Er2 & Hv & Ev).
    cbn [read_items]. rewrite Er. specialize (Hm (range a b)). unfold more, tail in *.
    destruct u; [congruence|..]; rewrite Er2; (destruct v; [congruence|..]; rewrite Eu, Ev; exact Hm).
Qed.

Lemma push_range_items : forall a b, a <= b -> exists items, push_range a b = map item_text items /\ items <> [] /\
  flat_map item_nums items = range a b.
Proof.
  intros a b H. unfold push_range. destruct (N.eqb_spec (b - a) 0) as [E|E].
  { rewrite E. assert (b = a) by lia. subst. exists [One a]. repeat split; [discriminate|]. cbn. now rewrite range_one. }
  destruct (N.eqb_spec (b - a) 1) as [E1|E1].
  { rewrite E1. assert (b = a + 1) by lia. subst. exists [One a; One (a + 1)]. repeat split; [discriminate|].
    rewrite range_snoc, range_one by lia. reflexivity. }
  exists [Many a b]. split; [|split; [discriminate|cbn [flat_map item_nums]; now rewrite app_nil_r]].
  destruct (b - a) as [|p]; [lia|]. destruct p; try reflexivity. lia.
Qed.

Lemma format_loop_items : forall l start prev, start <= prev ->
  exists items, format_loop start prev l = map item_text items /\ items <> [] /\
    flat_map item_nums items = range start prev ++ l.
Proof.
  induction l as [|v l IH]; intros start prev H; cbn [format_loop].
  - destruct (push_range_items start prev H) as (items & A & B & C). exists items. now rewrite app_nil_r.
  - destruct (N.eqb_spec v (prev + 1)) as [->|Hne].
    + destruct (IH start (prev + 1)) as (items & A & B & C); [lia|]. exists items. repeat split; auto.
      rewrite C, range_snoc by exact H. now rewrite <- app_assoc.
    + destruct (push_range_items start prev H) as (i1 & A1 & B1 & C1).
      destruct (IH v v) as (i2 & A2 & B2 & C2); [lia|]. exists (i1 ++ i2).
      rewrite map_app, A1, A2. repeat split; auto.
      * destruct i1; [congruence|discriminate].
      * rewrite flat_map_app, C1, C2, range_one. reflexivity.
Qed.

(** Reading a listing gives back the list of numbers, in order, whatever the list:
    nothing is lost in a range and nothing is added. *)
Theorem C61_listing_reads_back : forall l, read_listing (format_list l) = Some l.
Proof.
  intros [|v l]; [reflexivity|]. unfold format_list.
  destruct (format_loop_items l v v) as (items & A & B & C); [lia|]. rewrite A, range_one in *. cbn [app] in C.
  unfold read_listing. destruct (join_comma_space (map item_text items)) as [|b r] eqn:E.
  { destruct items as [|i r]; [congruence|]. assert (H := item_text_length i). cbn [map join_comma_space] in E.
    destruct (map item_text r); [rewrite E in H; cbn in H; lia|]. apply app_eq_nil in E as [E _]. rewrite E in H. cbn in H. lia. }
  rewrite <- E. rewrite read_items_join; [now rewrite C|exact B|lia].
Qed.

Lemma with_flag_in : forall flag hs i j, In j (with_flag flag i hs) <->
  exists k h, nth_error hs k = Some h /\ j = i + N.of_nat k /\ N.land h flag <> 0.
Proof.
  intros flag. induction hs as [|h hs IH]; intros i j; cbn [with_flag].
  - split; [intros []|]. intros (k & h & E & _). now destruct k.
  - assert (G : In j (with_flag flag (i + 1) hs) <-> exists k h', nth_error (h :: hs) (S k) = Some h' /\ j = i + N.of_nat (S k) /\ N.land h' flag <> 0).
    { rewrite IH. cbn [nth_error]. split; intros (k & h' & E & Ej & H); exists k, h'; repeat split; auto; lia. }
    destruct (N.eqb_spec (N.land h flag) 0) as [Z|Z]; cbn [negb].
    + rewrite G. split.
      * intros (k & h' & H). now exists (S k), h'.
      * intros ([|k] & h' & E & Ej & H); [cbn in E; injection E as <-; congruence|]. now exists k, h'.
    + cbn [In]. rewrite G. split.
      * intros [<-|(k & h' & H)]; [exists 0%nat, h; repeat split; auto; lia|now exists (S k), h'].
      * intros ([|k] & h' & E & Ej & H); [left; lia|right; now exists k, h'].
Qed.

Lemma with_flag_sorted : forall flag hs i, StronglySorted N.lt (with_flag flag i hs) /\
  forall j, In j (with_flag flag i hs) -> i <= j.
Proof.
  intros flag. induction hs as [|h hs IH]; intros i; cbn [with_flag].
  - split; [constructor|intros j []].
  - destruct (IH (i + 1)) as [S1 S2]. destruct (negb _).
    + split.
      * constructor; [exact S1|]. apply Forall_forall. intros j Hj. specialize (S2 j Hj). lia.
      * intros j [<-|Hj]; [lia|]. specialize (S2 j Hj). lia.
    + split; [exact S1|]. intros j Hj. specialize (S2 j Hj). lia.
Qed.

(** The three lines that dump-metadata prints: reading a line gives, in increasing
    order, exactly the numbers of the stripes whose header has the flag. *)
Theorem C61_dump_lists_exactly_the_stripes : forall headers line bit,
  let '(fetched_line, written_line, source_line) := dump_lines headers in
  In (line, bit) [(fetched_line, 0); (written_line, 1); (source_line, 2)] ->
  exists l, read_listing line = Some l /\ StronglySorted N.lt l /\
    forall i, In i l <-> exists h, nth_error headers (N.to_nat i) = Some h /\ N.testbit h bit = true.
Proof.
  intros headers line bit. unfold dump_lines. intros H.
  assert (G : exists flag, line = format_list (with_flag flag 0 headers) /\ flag = 2 ^ bit).
  { cbn [In] in H. destruct H as [H|[H|[H|[]]]]; injection H as <- <-; eexists; split; reflexivity. }
  destruct G as (flag & -> & ->). exists (with_flag (2 ^ bit) 0 headers).
  split; [apply C61_listing_reads_back|]. split; [apply with_flag_sorted|].
  intros i. rewrite with_flag_in.
  assert (B : forall h, N.land h (2 ^ bit) <> 0 <-> N.testbit h bit = true).
  { intros h. split; intros Hh.
    - destruct (N.testbit h bit) eqn:E; [reflexivity|]. exfalso. apply Hh. apply N.bits_inj. intros k.
      rewrite N.land_spec, N.pow2_bits_eqb, N.bits_0. destruct (N.eqb_spec bit k) as [<-|]; [now rewrite E|apply andb_false_r].
    - intros Z. assert (T : N.testbit (N.land h (2 ^ bit)) bit = true).
      { rewrite N.land_spec, N.pow2_bits_true, Hh. reflexivity. }
      rewrite Z, N.bits_0 in T. discriminate. }
  split.
  - intros (k & h & E & -> & Hh). exists h. rewrite N.add_0_l, Nat2N.id. split; [exact E|now apply B].
  - intros (h & E & Hh). exists (N.to_nat i), h. repeat split; auto; [lia|now apply B].
Qed.

Example C61_nonvacuous :
  dump_lines [1; 3; 1; 1; 4; 5; 6]%N = (text "0-3, 5", text "1, 6", text "4-6") /\
  format_list [2; 3; 9; 11; 12; 13]%N = text "2, 3, 9, 11-13" /\
  read_listing (text "2, 3, 9, 11-13") = Some [2; 3; 9; 11; 12; 13]%N /\
  read_listing (text "2,3") = None.
Proof. repeat split; vm_compute; reflexivity. Qed.

(** ** C62 *)

(** *** Words that are numbers *)
Lemma digits_print : forall u acc, exists n, digits acc (print_uint u) = Some n.
Proof. induction u; intros acc; cbn [print_uint digits]; [now exists acc|..]; apply IHu. Qed.

Fixpoint value (acc : N) (u : Decimal.uint) : N :=
  match u with
  | Decimal.Nil => acc
  | Decimal.D0 u => value (10 * acc) u | Decimal.D1 u => value (10 * acc + 1) u
  | Decimal.D2 u => value (10 * acc + 2) u | Decimal.D3 u => value (10 * acc + 3) u
  | Decimal.D4 u => value (10 * acc + 4) u | Decimal.D5 u => value (10 * acc + 5) u
  | Decimal.D6 u => value (10 * acc + 6) u | Decimal.D7 u => value (10 * acc + 7) u
  | Decimal.D8 u => value (10 * acc + 8) u | Decimal.D9 u => value (10 * acc + 9) u
  end.

Lemma value_pos : forall u p, value (Npos p) u = Npos (Pos.of_uint_acc u p).
Proof.
  induction u; intros p; cbn [value Pos.of_uint_acc]; [reflexivity|..]; rewrite <- IHu; f_equal; lia.
Qed.

Lemma value_of_uint : forall u, value 0 u = N.of_uint u.
Proof.
  unfold N.of_uint. induction u; cbn [value Pos.of_uint]; try reflexivity;
    try (change (10 * 0 + ?k) with k; now rewrite value_pos).
  exact IHu.
Qed.

Lemma digits_value : forall u acc, digits acc (print_uint u) = Some (value acc u).
Proof.
  induction u; intros acc; cbn [print_uint digits value]; [reflexivity|..];
    cbn [N.leb N.compare andb Pos.compare Pos.compare_cont]; rewrite IHu; do 2 f_equal; lia.
Qed.

Lemma digits_inv : forall l acc n, digits acc l = Some n -> exists u, l = print_uint u /\ n = value acc u.
Proof.
  induction l as [|b l IH]; intros acc n H; cbn [digits] in H.
  - exists Decimal.Nil. injection H as <-. now split.
  - destruct ((48 <=? b) && (b <=? 57)) eqn:E; [|discriminate]. apply IH in H as (u & -> & ->).
    assert (b = 48 \/ b = 49 \/ b = 50 \/ b = 51 \/ b = 52 \/ b = 53 \/ b = 54 \/ b = 55 \/ b = 56 \/ b = 57) as H by lia.
    destruct H as [->|[->|[->|[->|[->|[->|[->|[->|[->| ->]]]]]]]]].
    + exists (Decimal.D0 u). split; [reflexivity|]. cbn [value]. f_equal. lia.
    + now exists (Decimal.D1 u).
    + now exists (Decimal.D2 u).
    + now exists (Decimal.D3 u).
    + now exists (Decimal.D4 u).
    + now exists (Decimal.D5 u).
    + now exists (Decimal.D6 u).
    + now exists (Decimal.D7 u).
    + now exists (Decimal.D8 u).
    + now exists (Decimal.D9 u).
Qed.

Lemma print_uint_not_plus : forall u r, print_uint u <> 43 :: r.
Proof. intros u r. destruct u; discriminate. Qed.

Lemma print_uint_nil : forall u, print_uint u = [] -> u = Decimal.Nil.
Proof. intros u. destruct u; [reflexivity|discriminate..]. Qed.

Lemma from_str_number : forall w n, from_str w = Some n <-> number w n.
Proof.
  intros w n. unfold from_str. split.
  - set (body := match w with 43 :: (_ :: _) as r => r | _ => w end).
    intros H. assert (B : w = body \/ w = 43 :: body).
    { unfold body. destruct w as [|b r]; [now left|].
      destruct (N.eqb_spec b 43) as [->|Hb].
      - destruct r; [now left|now right].
      - left. destruct b as [|p]; [reflexivity|]. repeat (destruct p as [p|p|]; try reflexivity; try congruence). }
    destruct body as [|b r]; [discriminate|]. destruct (digits 0 (b :: r)) as [m|] eqn:E; [|discriminate].
    destruct (N.ltb_spec m (2 ^ 64)); [|discriminate]. injection H as <-.
    apply digits_inv in E as (u & Eu & ->). rewrite value_of_uint in *. exists u. rewrite <- Eu. repeat split; auto.
    intros ->. discriminate.
  - intros (u & Hu & -> & Hn & Hw).
    assert (P : exists b r, print_uint u = b :: r /\ b <> 43).
    { destruct (print_uint u) as [|b r] eqn:E; [apply print_uint_nil in E; congruence|].
      exists b, r. split; [reflexivity|]. intros ->. now apply (print_uint_not_plus u r). }
    destruct P as (b & r & Ep & Hb).
    assert (D := digits_value u 0). rewrite value_of_uint, Ep in D.
    assert (Hlt : (N.of_uint u <? 2 ^ 64) = true) by now apply N.ltb_lt.
    destruct Hw as [->| ->]; rewrite Ep.
    + assert (E : match b :: r with 43 :: (_ :: _) as r0 => r0 | _ => b :: r end = b :: r).
      { destruct b as [|p]; [reflexivity|]. repeat (destruct p as [p|p|]; try reflexivity; try congruence). }
      rewrite E, D, Hlt. reflexivity.
    + rewrite D, Hlt. reflexivity.
Qed.

(** *** Hexadecimal *)
Lemma unhex_hex_encode : forall d, Forall (fun b => b < 256) d -> unhex_text (hex_encode d) = d.
Proof.
  induction d as [|b d IH]; intros H; [reflexivity|]. inversion H; subst.
  change (hex_encode (b :: d)) with (hex (b / 16) :: hex (b mod 16) :: hex_encode d).
  cbn [unhex_text]. rewrite IH by assumption. f_equal. rewrite !unhex_hex by lia. lia.
Qed.

(** *** The commands never panic *)
Lemma dump_stripe_total : forall s i off len,
  (forall d, sh_cache s i = Some d -> N.of_nat (List.length d) < 2 ^ 63) ->
  exists line, dump_stripe s i off len = Ok line.
Proof.
  intros s i off len Hc. unfold dump_stripe.
  destruct (N.leb_spec (N.of_nat (List.length (sh_headers s))) i); [eauto|].
  destruct (nth_error (sh_headers s) (N.to_nat i)) as [h|] eqn:E.
  2:{ apply nth_error_None in E. lia. }
  unfold index. rewrite E. cbn [bindr].
  destruct (N.land h FLAG_WRITTEN =? 0).
  - destruct (_ <? _); eauto.
  - destruct (sh_cache s i) as [d|]; [|eauto]. specialize (Hc d eq_refl).
    destruct (N.ltb_spec (N.of_nat (List.length d)) (sat_add off len)) as [|Hl]; [eauto|].
    unfold sat_add in Hl. unfold slice_N.
    destruct ((off <=? off + len) && (off + len <=? N.of_nat (List.length d))) eqn:B; [cbn [bindr]; eauto|].
    exfalso. lia.
Qed.

(** What the stripe server's answers are: byte strings that fit in memory, or an
    error (the client does not panic, see C58). *)
Definition proper_server (server : N -> res (list byte)) : Prop :=
  forall i, match server i with
            | Ok d => N.of_nat (List.length d) < 2 ^ 63 /\ Forall (fun b => b < 256) d
            | Err _ => True
            | Panic => False
            end.
Definition proper (h : list (list (list byte) * (N -> res (list byte)))) : Prop :=
  forall words server, In (words, server) h -> proper_server server.

Definition small_cache (s : shell) : Prop :=
  forall i d, sh_cache s i = Some d -> N.of_nat (List.length d) < 2 ^ 63 /\ Forall (fun b => b < 256) d.

Definition fetches (server : N -> res (list byte)) (s : shell) (words : list (list byte)) (i : N) (d : list byte) : Prop :=
  exists w more, words = fetch_word :: w :: more /\ number w i /\ i < N.of_nat (List.length (sh_headers s)) /\ server i = Ok d.

Definition step_post (server : N -> res (list byte)) (s : shell) (words : list (list byte)) (r : res (shell * list byte * bool)) : Prop :=
  exists s' line go, r = Ok (s', line, go) /\ small_cache s' /\ sh_headers s' = sh_headers s /\
    sh_size s' = sh_size s /\
    (go = false -> exists r, words = text "exit" :: r \/ words = text "quit" :: r) /\
    forall i, (sh_cache s' i = sh_cache s i /\ forall d, ~ fetches server s words i d) \/
      (exists d, fetches server s words i d /\ sh_cache s' i = Some d).

Lemma step_total : forall server s words, proper_server server -> small_cache s ->
  step_post server s words (shell_step server s words).
Proof.
  intros server s words Hp Hc.
  assert (K2 : forall line, (forall i d, ~ fetches server s words i d) -> step_post server s words (Ok (s, line, true))).
  { intros line Hno. exists s, line, true. split; [reflexivity|]. split; [exact Hc|]. do 2 (split; [reflexivity|]). split; [discriminate|]. intros i. left. split; [reflexivity|]. exact (Hno i). }
  assert (K : forall line, words = [] \/ (exists c r, words = c :: r /\ c <> fetch_word) ->
    step_post server s words (Ok (s, line, true))).
  { intros line Hw. apply K2. intros i d (w & more & -> & _).
    destruct Hw as [Hw|(c & r & Hw & Hne)]; [discriminate|]. injection Hw as <- _. congruence. }
  unfold shell_step. destruct words as [|cmd args]; [apply K; now left|].
  destruct (bytes_eqb cmd (text "exit") || bytes_eqb cmd (text "quit")) eqn:E1.
  { exists s, [], false. assert (Hx : cmd = text "exit" \/ cmd = text "quit").
    { apply orb_true_iff in E1 as [E1|E1]; apply bytes_eqb_spec in E1; auto. }
    split; [reflexivity|]. split; [exact Hc|]. do 2 (split; [reflexivity|]). split.
    - intros _. exists args. destruct Hx as [->| ->]; auto.
    - intros i. left. split; [reflexivity|]. intros d (w & more & Hw & _). injection Hw as -> _. destruct Hx; discriminate. }
  destruct (bytes_eqb cmd (text "help")) eqn:E2.
  { apply K. right. exists cmd, args. split; [reflexivity|]. apply bytes_eqb_spec in E2. subst. discriminate. }
  destruct (bytes_eqb cmd (text "stripe_header")) eqn:E3.
  { apply bytes_eqb_spec in E3. assert (Hw : cmd :: args = [] \/ (exists c r, cmd :: args = c :: r /\ c <> fetch_word)).
    { right. exists cmd, args. split; [reflexivity|]. subst. discriminate. }
    destruct (parse_arg (nth_error args 0)) as [i|e]; [|now apply K].
    destruct (N.leb_spec (N.of_nat (List.length (sh_headers s))) i); [now apply K|].
    destruct (nth_error (sh_headers s) (N.to_nat i)) as [h|] eqn:E; [|apply nth_error_None in E; lia].
    unfold index. rewrite E. cbn [bindr]. now apply K. }
  destruct (bytes_eqb cmd (text "fetch_stripe")) eqn:E4.
  { apply bytes_eqb_spec in E4. change (text "fetch_stripe") with fetch_word in E4. subst cmd.
    clear K. destruct args as [|w more]; cbn [nth_error parse_arg].
    { apply K2. intros i d (w & more & Hw & _). discriminate. }
    destruct (from_str w) as [i|] eqn:Ew.
    2:{ apply K2. intros i d (w' & more' & Hw & Hn & _). injection Hw as -> ->. apply from_str_number in Hn. congruence. }
    assert (Huniq : forall j, number w j -> j = i).
    { intros j Hj. apply from_str_number in Hj. congruence. }
    destruct (N.leb_spec (N.of_nat (List.length (sh_headers s))) i).
    { apply K2. intros j d (w' & more' & Hw & Hn & Hlt & _). injection Hw as <- <-. apply Huniq in Hn. lia. }
    assert (Hpi := Hp i). destruct (server i) as [d|e|] eqn:Es; [|clear Hpi|destruct Hpi].
    - exists (cache s i d), (text "FETCHED"), true. split; [reflexivity|]. split.
      { intros j d' H'. cbn [cache sh_cache] in H'. destruct (N.eqb_spec j i); [injection H' as <-; exact Hpi|eapply Hc; eauto]. }
      split; [reflexivity|]. split; [reflexivity|]. split; [discriminate|].
      intros j. destruct (N.eqb_spec j i) as [->|Hj].
      + right. exists d. split; [exists w, more; repeat split; auto; now apply from_str_number|]. cbn [cache sh_cache]. now rewrite N.eqb_refl.
      + left. split; [cbn [cache sh_cache]; now destruct (N.eqb_spec j i)|].
        intros d' (w' & more' & Hw & Hn & _). injection Hw as <- <-. apply Huniq in Hn. congruence.
    - apply K2. intros j d (w' & more' & Hw & Hn & _ & Hs). injection Hw as <- <-. apply Huniq in Hn. congruence. }
  assert (Hw : cmd :: args = [] \/ (exists c r, cmd :: args = c :: r /\ c <> fetch_word)).
  { right. exists cmd, args. split; [reflexivity|]. intros ->. 
    assert (T : bytes_eqb fetch_word (text "fetch_stripe") = true) by now apply bytes_eqb_spec. congruence. }
  destruct (bytes_eqb cmd (text "dump_stripe")).
  { destruct (parse_arg (nth_error args 0)) as [i|]; [|now apply K].
    destruct (parse_arg (nth_error args 1)) as [off|]; [|now apply K].
    destruct (parse_arg (nth_error args 2)) as [len|]; [|now apply K].
    destruct (dump_stripe_total s i off len) as [line ->]; [intros d Hd; now apply (Hc i d)|]. cbn [bindr]. now apply K. }
  now apply K.
Qed.

Lemma run_snoc : forall h s s' outs words server s'' line go, still_in h ->
  shell_run s h = Ok (s', outs) -> proper h -> small_cache s ->
  shell_step server s' words = Ok (s'', line, go) ->
  shell_run s (h ++ [(words, server)]) = Ok (s'', outs ++ [line]).
Proof.
  induction h as [|[w f] h IH]; intros s s' outs words server s'' line go Hin Hr Hp Hc Hs.
  - cbn [shell_run] in Hr. apply Ok_inj in Hr. injection Hr as <- <-. cbn [app shell_run].
    rewrite Hs. cbn [bindr]. now destruct go.
  - cbn [shell_run app] in *.
    destruct (step_total f s w) as (s1 & o1 & g1 & E1 & Hc1 & _ & _ & Hg & _); auto.
    { apply (Hp w). now left. }
    rewrite E1 in *. cbn [bindr] in *. destruct g1.
    2:{ destruct (Hg eq_refl) as (r & [->| ->]); specialize (Hin _ _ (or_introl eq_refl)); cbn in Hin; destruct Hin; congruence. }
    destruct (shell_run s1 h) as [[s2 o2]| |] eqn:E2; cbn [bindr] in Hr; try discriminate.
    apply Ok_inj in Hr. injection Hr as <- <-.
    erewrite IH; [reflexivity|..]; eauto.
    + intros w' f' H'. apply (Hin w' f'). now right.
    + intros w' f' H'. apply (Hp w' f'). now right.
Qed.

(** The shell when it starts: the metadata is there, no stripe is. *)
Definition fresh (headers : list byte) (size : N) : shell := mk_shell headers size (fun _ => None).

Lemma session_state : forall headers size h, still_in h -> proper h ->
  exists s outs, shell_run (fresh headers size) h = Ok (s, outs) /\ List.length outs = List.length h /\
    sh_headers s = headers /\ sh_size s = size /\ small_cache s /\
    forall i r, fetched (N.of_nat (List.length headers)) i h r -> sh_cache s i = r.
Proof.
  intros headers size h. induction h as [|[w f] h IH] using rev_ind; intros Hin Hp.
  - exists (fresh headers size), []. repeat split; auto; try discriminate.
    intros i r H. inversion H; try (match goal with E : _ ++ [_] = [] |- _ => now apply app_eq_nil in E as [_ E] end). reflexivity.
  - destruct IH as (s & outs & E & L & Hh & Hz & Hc & Hf).
    { intros w' f' H'. apply (Hin w' f'). apply in_or_app. now left. }
    { intros w' f' H'. apply (Hp w' f'). apply in_or_app. now left. }
    destruct (step_total f s w) as (s' & line & go & Es & Hc' & Hh' & Hz' & _ & Hi).
    { apply (Hp w). apply in_or_app. right. now left. } { exact Hc. }
    exists s', (outs ++ [line]). split.
    { eapply run_snoc; eauto.
      - intros w' f' H'. apply (Hin w' f'). apply in_or_app. now left.
      - intros w' f' H'. apply (Hp w' f'). apply in_or_app. now left.
      - intros i d H'. discriminate. }
    split; [rewrite !app_length; cbn [List.length]; lia|]. split; [congruence|]. split; [congruence|].
    split; [exact Hc'|]. intros i r Hr. unfold fetches in Hi. rewrite Hh in Hi.
    inversion Hr as [H0|h0 w0 more server d Hn Hlt Hs H0|h0 words server r0 Hr0 Hno H0].
    + symmetry in H0. now apply app_eq_nil in H0 as [_ H0].
    + apply app_inj_tail in H0 as [Ea Eb]. injection Eb as Eb Ec0. subst.
      destruct (Hi i) as [[_ Hn']|(d1 & (w1 & more1 & _ & _ & _ & Hs1) & Ec)].
      * exfalso. apply (Hn' d). now exists w0, more.
      * congruence.
    + apply app_inj_tail in H0 as [Ea Eb]. injection Eb as Eb Ec0. subst.
      destruct (Hi i) as [[Ec _]|(d1 & (w1 & more1 & A & B & C & D) & _)].
      * rewrite Ec. now apply Hf.
      * exfalso. apply Hno. now exists w1, more1, d1.
Qed.

(** What dump_stripe shows, after any session: for a stripe that the metadata
    marks as written, exactly the requested bytes of what the last successful
    fetch_stripe of this stripe brought, in hexadecimal; and a message for a
    stripe that does not exist, one that has not been fetched, and a range that
    leaves it.  Nothing that is typed makes the shell fail. *)
Theorem C62_dump_shows_what_was_fetched :
  forall headers size h i off len wi wo wl more server,
    still_in h -> proper (h ++ [(text "dump_stripe" :: wi :: wo :: wl :: more, server)]) ->
    number wi i -> number wo off -> number wl len ->
    exists s outs line,
      shell_run (fresh headers size) (h ++ [(text "dump_stripe" :: wi :: wo :: wl :: more, server)]) = Ok (s, outs ++ [line]) /\
      List.length outs = List.length h /\
      (N.of_nat (List.length headers) <= i -> line = text "INVALID_STRIPE") /\
      (forall header r, nth_error headers (N.to_nat i) = Some header -> N.testbit header 1 = true ->
        fetched (N.of_nat (List.length headers)) i h r ->
        match r with
        | None => line = text "NOT_FETCHED_FROM_REMOTE"
        | Some d =>
          if off + len <=? N.of_nat (List.length d)
          then List.length line = (2 * N.to_nat len)%nat /\
               unhex_text line = firstn (N.to_nat len) (skipn (N.to_nat off) d)
          else line = text "INVALID_RANGE"
        end).
Proof.
  intros headers size h i off len wi wo wl more server Hin Hp Hi Ho Hl.
  destruct (session_state headers size h Hin) as (s & outs & E & L & Hh & Hz & Hc & Hf).
  { intros w' f' H'. apply (Hp w' f'). apply in_or_app. now left. }
  apply from_str_number in Hi, Ho, Hl.
  destruct (dump_stripe_total s i off len) as [line Hd]; [intros d Hd; now apply (Hc i d)|].
  exists s, outs, line. split.
  { eapply run_snoc with (go := true); eauto.
    - intros w' f' H'. apply (Hp w' f'). apply in_or_app. now left.
    - intros j d H'. discriminate.
    - change (shell_step server s (text "dump_stripe" :: wi :: wo :: wl :: more)) with
        (match parse_arg (Some wi), parse_arg (Some wo), parse_arg (Some wl) with
         | inl i, inl off, inl len => let! line := dump_stripe s i off len in Ok (s, line, true)
         | inr e, _, _ => Ok (s, e, true)
         | _, inr e, _ => Ok (s, e, true)
         | _, _, inr e => Ok (s, e, true)
         end).
      unfold parse_arg. rewrite Hi, Ho, Hl, Hd. reflexivity. }
  split; [exact L|]. unfold dump_stripe in Hd. rewrite Hh, Hz in Hd. split.
  { intros Hle. apply N.leb_le in Hle. rewrite Hle in Hd. apply Ok_inj in Hd. now subst. }
  intros header r Hn Hb Hr. apply Hf in Hr. subst r.
  assert (Hlt : (N.to_nat i < List.length headers)%nat) by (apply nth_error_Some; congruence).
  replace (N.of_nat (List.length headers) <=? i) with false in Hd by lia.
  unfold index in Hd. rewrite Hn in Hd. cbn [bindr] in Hd.
  assert (Hw : (N.land header FLAG_WRITTEN =? 0) = false).
  { apply N.eqb_neq. intros Z. assert (T : N.testbit (N.land header FLAG_WRITTEN) 1 = true).
    { rewrite N.land_spec, Hb. reflexivity. } rewrite Z in T. discriminate. }
  rewrite Hw in Hd. destruct (sh_cache s i) as [d|] eqn:Ec; [|apply Ok_inj in Hd; now subst].
  destruct (Hc i d Ec) as [Hs Hbytes]. unfold sat_add in Hd.
  assert (Hll : len < 2 ^ 64 /\ off < 2 ^ 64).
  { apply from_str_number in Ho, Hl. destruct Ho as (_ & _ & _ & Ho & _), Hl as (_ & _ & _ & Hl & _). now split. }
  destruct (N.leb_spec (off + len) (N.of_nat (List.length d))) as [Hr|Hr].
  - replace (N.of_nat (List.length d) <? N.min (off + len) (2 ^ 64 - 1)) with false in Hd by lia.
    unfold slice_N in Hd. replace ((off <=? off + len) && (off + len <=? N.of_nat (List.length d))) with true in Hd by lia.
    cbn [bindr] in Hd. apply Ok_inj in Hd. subst line. replace (off + len - off) with len by lia.
    set (piece := firstn (N.to_nat len) (skipn (N.to_nat off) d)).
    assert (Lp : List.length piece = N.to_nat len) by (unfold piece; rewrite firstn_length, skipn_length; lia).
    split.
    + rewrite <- Lp. generalize piece. intros p. induction p as [|b p IHp]; [reflexivity|].
      change (hex_encode (b :: p)) with (hex (b / 16) :: hex (b mod 16) :: hex_encode p). cbn [List.length]. lia.
    + apply unhex_hex_encode. unfold piece. rewrite Forall_forall in *. intros x Hx. apply Hbytes.
      assert (Hx' : In x (skipn (N.to_nat off) d)).
      { rewrite <- (firstn_skipn (N.to_nat len)). apply in_or_app. now left. }
      rewrite <- (firstn_skipn (N.to_nat off)). apply in_or_app. now right.
  - replace (N.of_nat (List.length d) <? N.min (off + len) (2 ^ 64 - 1)) with true in Hd by lia.
    apply Ok_inj in Hd. now subst.
Qed.

(** What stripe_header shows, after any session: the flag byte of the stripe in the
    metadata the server sent, in hexadecimal, and whether it says "written". *)
Theorem C62_stripe_header :
  forall headers size h i wi more server,
    still_in h -> proper (h ++ [(text "stripe_header" :: wi :: more, server)]) -> number wi i ->
    exists s outs line,
      shell_run (fresh headers size) (h ++ [(text "stripe_header" :: wi :: more, server)]) = Ok (s, outs ++ [line]) /\
      List.length outs = List.length h /\
      (N.of_nat (List.length headers) <= i -> line = text "INVALID_STRIPE") /\
      (forall header, nth_error headers (N.to_nat i) = Some header -> header < 256 ->
        exists x y, line = text "0x" ++ [x; y] ++ 32 :: text (if N.testbit header 1 then "WRITTEN" else "NOT_WRITTEN") /\
          unhex_text [x; y] = [header]).
Proof.
  intros headers size h i wi more server Hin Hp Hi.
  destruct (session_state headers size h Hin) as (s & outs & E & L & Hh & Hz & Hc & Hf).
  { intros w' f' H'. apply (Hp w' f'). apply in_or_app. now left. }
  apply from_str_number in Hi.
  set (line := if N.of_nat (List.length headers) <=? i then text "INVALID_STRIPE"
               else let header := nth (N.to_nat i) headers 0 in
                 text "0x" ++ hex_encode [header] ++ 32 ::
                 (if negb (N.land header FLAG_WRITTEN =? 0) then text "WRITTEN" else text "NOT_WRITTEN")).
  exists s, outs, line. split.
  { eapply run_snoc with (go := true); eauto.
    - intros w' f' H'. apply (Hp w' f'). apply in_or_app. now left.
    - intros j d H'. discriminate.
    - change (shell_step server s (text "stripe_header" :: wi :: more)) with
        (match parse_arg (Some wi) with
         | inr e => Ok (s, e, true)
         | inl i =>
           if N.of_nat (List.length (sh_headers s)) <=? i then Ok (s, text "INVALID_STRIPE", true)
           else
             let! header := index (sh_headers s) (N.to_nat i) in
             let status := if negb (N.land header FLAG_WRITTEN =? 0) then text "WRITTEN" else text "NOT_WRITTEN" in
             Ok (s, text "0x" ++ hex_encode [header] ++ 32 :: status, true)
         end).
      unfold parse_arg. rewrite Hi, Hh. unfold line. destruct (N.leb_spec (N.of_nat (List.length headers)) i) as [Hle|Hlt]; [reflexivity|].
      unfold index. destruct (nth_error headers (N.to_nat i)) as [x|] eqn:En.
      + cbn [bindr]. cbv zeta. now rewrite (nth_error_nth _ _ _ En).
      + apply nth_error_None in En. lia. }
  split; [exact L|]. unfold line. split.
  { intros Hle. apply N.leb_le in Hle. now rewrite Hle. }
  intros header Hn Hb. assert (Hlt : (N.to_nat i < List.length headers)%nat) by (apply nth_error_Some; congruence).
  replace (N.of_nat (List.length headers) <=? i) with false by lia. cbv zeta. rewrite (nth_error_nth _ _ _ Hn).
  exists (hex (header / 16)), (hex (header mod 16)). split.
  - assert (Hw : negb (N.land header FLAG_WRITTEN =? 0) = N.testbit header 1).
    { destruct (N.testbit header 1) eqn:Hb1.
      - apply negb_true_iff, N.eqb_neq. intros Z. assert (T : N.testbit (N.land header FLAG_WRITTEN) 1 = true).
        { rewrite N.land_spec, Hb1. reflexivity. } rewrite Z in T. discriminate.
      - apply negb_false_iff, N.eqb_eq. apply N.bits_inj. intros n. rewrite N.land_spec, N.bits_0.
        destruct (N.eq_dec n 1) as [->|Nn]; [now rewrite Hb1|].
        change FLAG_WRITTEN with (2 ^ 1). rewrite N.pow2_bits_false by congruence. apply andb_false_r. }
    rewrite Hw. now destruct (N.testbit header 1).
  - apply (unhex_hex_encode [header]). constructor; [exact Hb|constructor].
Qed.

(** Nothing that is typed, and nothing the server answers, ends the shell but the
    commands exit and quit. *)
Theorem C62_only_exit_ends : forall headers size h, still_in h -> proper h ->
  exists s outs, shell_run (fresh headers size) h = Ok (s, outs) /\ List.length outs = List.length h.
Proof.
  intros headers size h H1 H2. destruct (session_state headers size h H1 H2) as (s & outs & E & L & _). eauto.
Qed.

(** What does not hold: that dump_stripe shows fetched data for every stripe.  For
    a stripe without the written flag it prints zeros, even right after fetching
    the stripe was reported as done and although its data is not zero: a stripe
    whose data comes from the image and was never overwritten by the guest. *)
Theorem C62_refuted_stripes_of_the_image : exists headers size h server s outs d,
  headers = [4%N] /\ proper h /\
  fetched 1 0 h (Some d) /\ nth 0 d 0 <> 0 /\
  shell_run (fresh headers size) (h ++ [([text "dump_stripe"; text "0"; text "0"; text "4"], server)])
    = Ok (s, outs ++ [text "00000000"]) /\ outs = [text "FETCHED"].
Proof.
  set (server := fun _ : N => @Ok (list byte) (repeat 7 512)).
  exists [4], 512, [([fetch_word; text "0"], server)], server.
  eexists. eexists. exists (repeat 7 512). split; [reflexivity|]. split.
  { intros w f [H|[]]. injection H as <- <-. intros j. cbn beta delta [server]. split; [vm_compute; reflexivity|].
    apply Forall_forall. intros x Hx. apply repeat_spec in Hx. subst. reflexivity. }
  split.
  { apply (fetched_this 1 0 []); try reflexivity. exists (Decimal.D0 Decimal.Nil). repeat split; try discriminate. now left. }
  split; [vm_compute; discriminate|]. split; [|reflexivity].
  assert (H := run_snoc [([fetch_word; text "0"], server)] (fresh [4] 512) (cache (fresh [4] 512) 0 (repeat 7 512)) [text "FETCHED"]
    [text "dump_stripe"; text "0"; text "0"; text "4"] server (cache (fresh [4] 512) 0 (repeat 7 512)) (text "00000000") true).
  apply H.
  - intros w f [E|[]]. injection E as <- <-. split; discriminate.
  - reflexivity.
  - intros w f [E|[]]. injection E as <- <-. intros j. cbn beta delta [server]. split; [vm_compute; reflexivity|].
    apply Forall_forall. intros x Hx. apply repeat_spec in Hx. subst. reflexivity.
  - intros j d E. discriminate.
  - vm_compute. reflexivity.
Qed.

Example C62_nonvacuous :
  let server := fun _ : N => @Ok (list byte) (map N.of_nat (seq 0 256)) in
  let h := [([fetch_word; text "+01"], server)] in
  still_in h /\ fetched 2 1 h (Some (map N.of_nat (seq 0 256))) /\
  option_map (fun x => snd x)
    (match shell_run (fresh [4; 2] 256) (h ++ [([text "dump_stripe"; text "1"; text "9"; text "3"], server);
                                          ([text "dump_stripe"; text "1"; text "254"; text "3"], server);
                                          ([text "dump_stripe"; text "2"; text "0"; text "3"], server);
                                          ([text "stripe_header"; text "1"], server); ([text "quit"], server)]) with Ok x => Some x | _ => None end)
    = Some [text "FETCHED"; text "090a0b"; text "INVALID_RANGE"; text "INVALID_STRIPE"; text "0x02 WRITTEN"; []] /\
  from_str (text "18446744073709551615") = Some (2 ^ 64 - 1) /\ from_str (text "18446744073709551616") = None /\
  from_str (text "+") = None /\ from_str (text "-1") = None.
Proof.
  split; [|split; [|repeat split; vm_compute; reflexivity]].
  - intros w f [E|[]]. injection E as <- <-. split; discriminate.
  - apply (fetched_this 2 1 []); try reflexivity. exists (Decimal.D0 (Decimal.D1 Decimal.Nil)). repeat split; try discriminate. now right.
Qed.

Print Assumptions C61_listing_reads_back.
Print Assumptions C61_dump_lists_exactly_the_stripes.
Print Assumptions C62_dump_shows_what_was_fetched.
Print Assumptions C62_stripe_header.
Print Assumptions C62_only_exit_ends.
Print Assumptions C62_refuted_stripes_of_the_image.
