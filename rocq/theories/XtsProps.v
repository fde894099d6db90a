(** C60: encoding and decoding images with the [xts] tool. *)
From Coq Require Import List Arith NArith ZArith Bool Lia ZifyBool ZifyNat ZifyN.
Import ListNotations.
From Verif Require Import Base BaseFacts ListFacts CryptModel CryptSpec CryptProps XtsModel XtsSpec.
Ltac Zify.zify_post_hook ::= Z.div_mod_to_equations.

(** ** Sectors of concatenated buffers *)
Lemma sector_of_app_l : forall a b p j, length a = p * 512 -> j < p -> sector_of (a ++ b) j = sector_of a j.
Proof.
  intros a b p j L H. unfold sector_of. rewrite skipn_app, firstn_app, skipn_length.
  replace (512 - (length a - 512 * j)) with 0 by nia. cbn [firstn]. now rewrite app_nil_r.
Qed.

Lemma sector_of_app_r : forall a b p j, length a = p * 512 -> p <= j -> sector_of (a ++ b) j = sector_of b (j - p).
Proof.
  intros a b p j L H. unfold sector_of. rewrite skipn_app, (skipn_all2 a) by nia. cbn [app].
  f_equal. f_equal. nia.
Qed.

Lemma sector_of_firstn : forall l p j, j < p -> sector_of (firstn (p * 512) l) j = sector_of l j.
Proof.
  intros l p j H. unfold sector_of. rewrite skipn_firstn_comm, firstn_firstn. f_equal. nia.
Qed.

Lemma sector_of_skipn : forall l p j, sector_of (skipn (p * 512) l) j = sector_of l (p + j).
Proof. intros l p j. unfold sector_of. rewrite skipn_skipn. f_equal. f_equal. lia. Qed.

Lemma skipn_rep : forall {A} (x : A) k n, skipn k (repeat x n) = repeat x (n - k).
Proof.
  intros A x. induction k as [|k IH]; intros n; [now rewrite Nat.sub_0_r|].
  destruct n; cbn [repeat skipn]; [reflexivity|]. rewrite IH. reflexivity.
Qed.

Lemma firstn_rep : forall {A} (x : A) k n, k <= n -> firstn k (repeat x n) = repeat x k.
Proof.
  intros A x. induction k as [|k IH]; intros n H; [reflexivity|].
  destruct n; [lia|]. cbn [repeat firstn]. f_equal. apply IH. lia.
Qed.

Lemma sector_of_zeros : forall k j, j < k -> sector_of (repeat 0%N (k * 512)) j = repeat 0%N 512.
Proof.
  intros k j H. unfold sector_of. rewrite skipn_rep. apply firstn_rep. nia.
Qed.

Lemma sector_of_length : forall l j, (j + 1) * 512 <= length l -> length (sector_of l j) = 512.
Proof. intros l j H. unfold sector_of. rewrite firstn_length, skipn_length. nia. Qed.

Lemma write_at_sectors : forall o m cur n c, length o = m * 512 -> length c = n * 512 ->
  length (write_at o (cur * 512) c) = Nat.max m (cur + n) * 512 /\
  forall j, j < Nat.max m (cur + n) ->
    sector_of (write_at o (cur * 512) c) j =
      if (cur <=? j) && (j <? cur + n) then sector_of c (j - cur)
      else if j <? m then sector_of o j else repeat 0%N 512.
Proof.
  intros o m cur n c Lo Lc. unfold write_at.
  set (pad := o ++ repeat 0%N (cur * 512 - length o)).
  assert (Lp : length pad = Nat.max m cur * 512) by (unfold pad; rewrite app_length, repeat_length; nia).
  assert (Lf : length (firstn (cur * 512) pad) = cur * 512) by (rewrite firstn_length; nia).
  assert (Ls : length (skipn (cur * 512 + length c) o) = (m - (cur + n)) * 512) by (rewrite skipn_length; nia).
  split. { rewrite !app_length, Lf, Ls, Lc. nia. }
  intros j Hj. destruct (Nat.leb_spec cur j) as [H1|H1]; cbn [andb].
  - rewrite (sector_of_app_r _ _ cur) by (auto; lia). destruct (Nat.ltb_spec j (cur + n)) as [H2|H2].
    + apply (sector_of_app_l _ _ n); lia.
    + rewrite (sector_of_app_r _ _ n) by lia.
      replace (cur * 512 + length c) with ((cur + n) * 512) by lia. rewrite sector_of_skipn.
      replace (cur + n + (j - cur - n)) with j by lia.
      destruct (Nat.ltb_spec j m); [reflexivity|lia].
  - rewrite (sector_of_app_l _ _ cur) by (auto; lia). rewrite sector_of_firstn by lia.
    unfold pad. destruct (Nat.ltb_spec j m).
    + now apply (sector_of_app_l _ _ m).
    + rewrite (sector_of_app_r _ _ m) by (auto; lia).
      replace (cur * 512 - length o) with ((cur - m) * 512) by nia. apply sector_of_zeros. lia.
Qed.

Lemma tweak_is : forall x, tweak (N.of_nat x) = sector_tweak x.
Proof. reflexivity. Qed.

Lemma xts_process_sectors : forall f buf start n,
  (forall t v, length v = 512 -> length (f t v) = 512) -> length buf = n * 512 ->
  exists buf', xts_process f buf (N.of_nat start) n = Ok buf' /\ length buf' = n * 512 /\
    forall i, i < n -> sector_of buf' i = f (sector_tweak (start + i)) (sector_of buf i).
Proof.
  intros f buf start n Hf L. destruct (C21_sector_uses_its_own_tweak f buf (N.of_nat start) n Hf) as (b & E & Lb & Hs & _); [lia|].
  exists b. repeat split; auto; [lia|]. intros i Hi. rewrite Hs by exact Hi. now rewrite <- Nat2N.inj_add, tweak_is.
Qed.

(** ** The two loops *)
Lemma decode_loop_ok : forall dec io inp out, inp <> out ->
  (forall t v, length v = 512 -> length (dec t v) = 512) ->
  forall fuel fs f o cur rem k, fs inp = Some f -> fs out = Some o -> (cur + rem) * 512 <= length f -> rem < fuel ->
  exists fs' r o', decode_loop dec io fuel fs inp out cur rem k = (fs', r) /\
    (forall p, p <> out -> fs' p = fs p) /\ fs' out = Some (o ++ o') /\ (r = Ok tt \/ r = Err 4) /\
    ((forall k, io k = true) -> r = Ok tt) /\
    (r = Ok tt -> length o' = rem * 512 /\ transformed dec f cur rem o' 0).
Proof.
  intros dec io inp out Hne Hd. induction fuel as [|fuel IH]; intros fs f o cur rem k Hi Ho HL Hf; [lia|].
  cbn [decode_loop]. destruct (Nat.eqb_spec rem 0) as [->|Hr].
  { exists fs, (Ok tt), []. rewrite app_nil_r. repeat split; auto. intros i Hi'. lia. }
  rewrite Hi, Ho. set (n := Nat.min rem MAX_CHUNK). assert (Hn : 0 < n <= rem) by (unfold n, MAX_CHUNK; lia).
  unfold read_exact_at. replace (cur * 512 + n * 512 <=? length f) with true by (symmetry; apply Nat.leb_le; nia).
  destruct (io k) eqn:Ek; cbn [negb].
  2:{ exists fs, (Err 4), []. rewrite app_nil_r. repeat split; auto; try discriminate; intros Hio; congruence. }
  destruct (xts_process_sectors dec (firstn (n * 512) (skipn (cur * 512) f)) cur n Hd) as (data & E & Ld & Hs).
  { rewrite firstn_length, skipn_length. nia. }
  rewrite E.
  destruct (IH (upd fs out (Some (o ++ data))) f (o ++ data) (cur + n) (rem - n) (S k)) as (fs' & r & o' & E' & Hp & Ho' & Hr' & Hio & Hok).
  { now rewrite upd_neq. } { apply upd_eq. } { nia. } { lia. }
  exists fs', r, (data ++ o'). split; [exact E'|]. split.
  { intros p Hp'. rewrite Hp by exact Hp'. now apply upd_neq. }
  split. { now rewrite Ho', app_assoc. }
  split; [exact Hr'|]. split; [exact Hio|]. intros Hr1. destruct (Hok Hr1) as [L T].
  split. { rewrite app_length, L, Ld. nia. }
  intros i Hi'. cbn [Nat.add]. destruct (Nat.ltb_spec i n) as [Hin|Hin].
  - rewrite (sector_of_app_l _ _ n) by (auto; lia). rewrite Hs by exact Hin. f_equal.
    rewrite sector_of_firstn by exact Hin. apply sector_of_skipn.
  - rewrite (sector_of_app_r _ _ n) by (auto; lia).
    specialize (T (i - n) ltac:(lia)). cbn [Nat.add] in T. rewrite T.
    now replace (cur + n + (i - n)) with (cur + i) by lia.
Qed.

Lemma encode_loop_ok : forall enc io inp out, inp <> out ->
  (forall t v, length v = 512 -> length (enc t v) = 512) ->
  forall fuel fs f o m cur rem k, fs inp = Some f -> fs out = Some o -> length o = m * 512 ->
  (cur + rem) * 512 <= length f -> rem < fuel ->
  exists fs' r o', encode_loop enc io fuel fs inp out (cur * 512) cur rem k = (fs', r) /\
    (forall p, p <> out -> fs' p = fs p) /\ fs' out = Some o' /\ (r = Ok tt \/ r = Err 4) /\
    ((forall k, io k = true) -> r = Ok tt) /\
    (r = Ok tt -> let m' := if rem =? 0 then m else Nat.max m (cur + rem) in
      length o' = m' * 512 /\ transformed enc f cur rem o' cur /\
      forall j, j < m' -> ~ (cur <= j < cur + rem) ->
        sector_of o' j = if j <? m then sector_of o j else repeat 0%N 512).
Proof.
  intros enc io inp out Hne He. induction fuel as [|fuel IH]; intros fs f o m cur rem k Hi Ho Lo HL Hf; [lia|].
  cbn [encode_loop]. destruct (Nat.eqb_spec rem 0) as [->|Hr].
  { exists fs, (Ok tt), o. repeat split; auto; cbn [Nat.eqb] in *.
    - intros i Hi'. lia.
    - intros j Hj _. now replace (j <? m) with true by lia. }
  rewrite Hi, Ho. set (n := Nat.min rem MAX_CHUNK). assert (Hn : 0 < n <= rem) by (unfold n, MAX_CHUNK; lia).
  unfold read_exact_at. replace (cur * 512 + n * 512 <=? length f) with true by (symmetry; apply Nat.leb_le; nia).
  destruct (xts_process_sectors enc (firstn (n * 512) (skipn (cur * 512) f)) cur n He) as (data & E & Ld & Hs).
  { rewrite firstn_length, skipn_length. nia. }
  rewrite E. destruct (io k) eqn:Ek; cbn [negb].
  2:{ exists fs, (Err 4), o. repeat split; auto; try discriminate; intros Hio; congruence. }
  destruct (write_at_sectors o m cur n data Lo Ld) as [Lw Hw].
  set (w := write_at o (cur * 512) data) in *.
  destruct (IH (upd fs out (Some w)) f w (Nat.max m (cur + n)) (cur + n) (rem - n) (S k)) as (fs' & r & o' & E' & Hp & Ho' & Hr' & Hio & Hok).
  { now rewrite upd_neq. } { apply upd_eq. } { exact Lw. } { nia. } { lia. }
  replace (cur * 512 + n * 512) with ((cur + n) * 512) by lia.
  exists fs', r, o'. split; [exact E'|]. split.
  { intros p Hp'. rewrite Hp by exact Hp'. now apply upd_neq. }
  split; [exact Ho'|]. split; [exact Hr'|]. split; [exact Hio|]. intros Hr1. destruct (Hok Hr1) as (L & T & Z).
  assert (M : (if rem - n =? 0 then Nat.max m (cur + n) else Nat.max (Nat.max m (cur + n)) (cur + n + (rem - n)))
    = Nat.max m (cur + rem)) by (destruct (Nat.eqb_spec (rem - n) 0); lia).
  rewrite M in L, Z. split; [exact L|]. split.
  - intros i Hi'. destruct (Nat.ltb_spec i n) as [Hin|Hin].
    + rewrite Z by lia. replace (cur + i <? Nat.max m (cur + n)) with true by lia.
      rewrite Hw by lia. replace ((cur <=? cur + i) && (cur + i <? cur + n)) with true by lia.
      replace (cur + i - cur) with i by lia. rewrite Hs by exact Hin. f_equal.
      rewrite sector_of_firstn by exact Hin. apply sector_of_skipn.
    + specialize (T (i - n) ltac:(lia)). now replace (cur + n + (i - n)) with (cur + i) in T by lia.
  - intros j Hj Hc. rewrite Z by lia. destruct (Nat.ltb_spec j (Nat.max m (cur + n))) as [H1|H1].
    + rewrite Hw by lia. now replace ((cur <=? j) && (j <? cur + n)) with false by lia.
    + now replace (j <? m) with false by lia.
Qed.

(** ** The range *)
Lemma xts_range_spec : forall total a,
  (exists from count, xts_range (total * 512) a = Ok (from, count) /\ asked total (x_start a) (x_len a) from count) \/
  (is_err (xts_range (total * 512) a) = true /\ forall from count, ~ asked total (x_start a) (x_len a) from count).
Proof.
  intros total a. unfold xts_range, asked. rewrite Nat.mod_mul by lia. cbn [Nat.eqb negb].
  rewrite Nat.div_mul by lia.
  set (s := match x_start a with Some s => s | None => 0 end).
  destruct (Nat.leb_spec total s). { right. split; [reflexivity|]. intros from count (A & B & C & D). lia. }
  destruct (x_len a) as [l|].
  - destruct (Nat.eqb_spec l 0) as [->|]; [left; exists s, 0; repeat split; lia|].
    destruct (Nat.ltb_spec (total - s) l).
    + right. split; [reflexivity|]. intros from count (A & B & C & D). lia.
    + left. exists s, l. repeat split; lia.
  - left. exists s, (total - s). repeat split; lia.
Qed.

Lemma xts_range_unaligned : forall len a, len mod 512 <> 0 -> xts_range len a = Err 1.
Proof. intros len a H. unfold xts_range. destruct (Nat.eqb_spec (len mod 512) 0); [contradiction|reflexivity]. Qed.

(** ** C60: the tool *)

(** Decoding: when the tool reports success, the output file is the requested
    sectors, each decrypted with the tweak of its place in the encrypted image;
    nothing else changed.  With disks that work it does report success. *)
Theorem C60_decode :
  forall dec io fs a f total from count,
    (forall t v, length v = 512 -> length (dec t v) = 512) ->
    x_input a <> x_output a -> fs (x_input a) = Some f -> length f = total * 512 ->
    asked total (x_start a) (x_len a) from count ->
    (forall p, p <> x_output a -> fst (decode dec io fs a) p = fs p) /\
    ((forall k, io k = true) -> snd (decode dec io fs a) = Ok tt) /\
    (snd (decode dec io fs a) = Ok tt ->
      exists out, fst (decode dec io fs a) (x_output a) = Some out /\ length out = count * 512 /\
        transformed dec f from count out 0).
Proof.
  intros dec io fs a f total from count Hd Hne Hf L Ha. unfold decode. rewrite Hf, L.
  destruct (xts_range_spec total a) as [(fr & c & E & Ha')|[_ Hno]]; [|destruct (Hno _ _ Ha)].
  rewrite E. assert (fr = from /\ c = count) as [-> ->].
  { destruct Ha as (-> & -> & _), Ha' as (-> & -> & _). now split. }
  destruct Ha as (_ & _ & H1 & H2).
  destruct (decode_loop_ok dec io _ _ Hne Hd (S count) (upd fs (x_output a) (Some [])) f [] from count 0)
    as (fs' & r & o' & E' & Hp & Ho & _ & Hio & Hok).
  { now rewrite upd_neq. } { apply upd_eq. } { nia. } { lia. }
  rewrite E'. cbn [fst snd]. split. { intros p Hp'. rewrite Hp by exact Hp'. now apply upd_neq. }
  split; [exact Hio|]. intros Hr. exists o'. split; [exact Ho|]. now apply Hok.
Qed.

(** Encoding: when the tool reports success, every requested sector sits in the
    output at its own place, encrypted with its own tweak; sectors below the
    start are zeros; nothing else changed. *)
Theorem C60_encode :
  forall enc io fs a f total from count,
    (forall t v, length v = 512 -> length (enc t v) = 512) ->
    x_input a <> x_output a -> fs (x_input a) = Some f -> length f = total * 512 ->
    asked total (x_start a) (x_len a) from count ->
    (forall p, p <> x_output a -> fst (encode enc io fs a) p = fs p) /\
    ((forall k, io k = true) -> snd (encode enc io fs a) = Ok tt) /\
    (snd (encode enc io fs a) = Ok tt ->
      exists out, fst (encode enc io fs a) (x_output a) = Some out /\
        length out = (if count =? 0 then 0 else from + count) * 512 /\
        transformed enc f from count out from /\
        (0 < count -> forall j, j < from -> sector_of out j = repeat 0%N 512)).
Proof.
  intros enc io fs a f total from count He Hne Hf L Ha. unfold encode. rewrite Hf, L.
  destruct (xts_range_spec total a) as [(fr & c & E & Ha')|[_ Hno]]; [|destruct (Hno _ _ Ha)].
  rewrite E. assert (fr = from /\ c = count) as [-> ->].
  { destruct Ha as (-> & -> & _), Ha' as (-> & -> & _). now split. }
  destruct Ha as (_ & _ & H1 & H2).
  destruct (encode_loop_ok enc io _ _ Hne He (S count) (upd fs (x_output a) (Some (repeat 0%N (count * 512)))) f
    (repeat 0%N (count * 512)) count from count 0)
    as (fs' & r & o' & E' & Hp & Ho & _ & Hio & Hok).
  { now rewrite upd_neq. } { apply upd_eq. } { apply repeat_length. } { nia. } { lia. }
  rewrite E'. cbn [fst snd]. split. { intros p Hp'. rewrite Hp by exact Hp'. now apply upd_neq. }
  split; [exact Hio|]. intros Hr. exists o'. split; [exact Ho|]. destruct (Hok Hr) as (L' & T & Z).
  split. { rewrite L'. destruct (Nat.eqb_spec count 0); lia. }
  split; [exact T|]. intros Hc j Hj. rewrite Z; [|destruct (Nat.eqb_spec count 0); lia|lia].
  destruct (Nat.ltb_spec j count); [|reflexivity]. now apply sector_of_zeros.
Qed.

(** A request the image does not contain, or an image that is not a whole number
    of sectors, or a missing input, is refused before any file is touched. *)
Theorem C60_refused :
  forall enc dec io fs a,
    (fs (x_input a) = None \/
     (exists f, fs (x_input a) = Some f /\ length f mod 512 <> 0) \/
     (exists f total, fs (x_input a) = Some f /\ length f = total * 512 /\
        forall from count, ~ asked total (x_start a) (x_len a) from count)) ->
    fst (encode enc io fs a) = fs /\ is_err (snd (encode enc io fs a)) = true /\
    fst (decode dec io fs a) = fs /\ is_err (snd (decode dec io fs a)) = true.
Proof.
  intros enc dec io fs a H. unfold encode, decode. destruct H as [E|[(f & E & L)|(f & total & E & L & Hno)]]; rewrite E.
  - now repeat split.
  - rewrite xts_range_unaligned by exact L. now repeat split.
  - rewrite L. destruct (xts_range_spec total a) as [(fr & c & _ & Ha)|[He _]]; [destruct (Hno _ _ Ha)|].
    destruct (xts_range (total * 512) a) as [[x y]|e|]; try discriminate. now repeat split.
Qed.

(** Encoding and decoding the same sectors gives them back, whatever the size of
    the image and the chunk boundaries in it. *)
Theorem C60_roundtrip :
  forall enc dec fs src mid dst start len f total from count,
    tweakable_cipher enc dec -> src <> mid -> mid <> dst ->
    fs src = Some f -> length f = total * 512 -> asked total start len from count -> 0 < count ->
    let e := encode enc (fun _ => true) fs {| x_input := src; x_output := mid; x_start := start; x_len := len |} in
    let d := decode dec (fun _ => true) (fst e) {| x_input := mid; x_output := dst; x_start := start; x_len := len |} in
    snd e = Ok tt /\ snd d = Ok tt /\
    fst d dst = Some (firstn (count * 512) (skipn (from * 512) f)).
Proof.
  intros enc dec fs src mid dst start len f total from count (Hde & Le & Ld) H1 H2 Hf L Ha Hc e d.
  set (ae := {| x_input := src; x_output := mid; x_start := start; x_len := len |}) in *.
  set (ad := {| x_input := mid; x_output := dst; x_start := start; x_len := len |}) in *.
  destruct (C60_encode enc (fun _ => true) fs ae f total from count Le H1 Hf L Ha) as (_ & E1 & E2).
  specialize (E1 (fun _ => eq_refl)). fold e in E1, E2. destruct (E2 E1) as (m & Em & Lm & Tm & _).
  destruct (Nat.eqb_spec count 0); [lia|].
  assert (Ha' : asked (from + count) start len from count).
  { destruct Ha as (A & B & C & D). unfold asked. repeat split; auto; try lia.
    destruct len; [exact B|lia]. }
  destruct (C60_decode dec (fun _ => true) (fst e) ad m (from + count) from count Ld H2 Em Lm Ha') as (_ & D1 & D2).
  specialize (D1 (fun _ => eq_refl)). fold d in D1, D2. destruct (D2 D1) as (o & Eo & Lo & To).
  split; [exact E1|]. split; [exact D1|]. etransitivity; [exact Eo|]. f_equal.
  destruct Ha as (_ & _ & C & D).
  assert (Lr : length (firstn (count * 512) (skipn (from * 512) f)) = count * 512) by (rewrite firstn_length, skipn_length; nia).
  apply (buf_ext _ _ count).
  - lia.
  - lia.
  - intros i Hi. specialize (To i Hi). cbn [Nat.add] in To. rewrite To, (Tm i Hi).
    rewrite Hde by (apply sector_of_length; nia).
    now rewrite sector_of_firstn, sector_of_skipn by exact Hi.
  - rewrite !skipn_all2 by lia. reflexivity.
Qed.

(** Decoding the data file of an encrypted disk gives what the guest sees: if
    every sector of the file is the encryption of the guest's sector, the output
    is the guest's sectors.  (C20 says the data file is such a file.) *)
Theorem C60_decode_gives_guest_data :
  forall enc dec fs a f total from count guest,
    tweakable_cipher enc dec -> x_input a <> x_output a ->
    fs (x_input a) = Some f -> length f = total * 512 -> length guest = total * 512 ->
    (forall x, x < total -> sector_of f x = enc (sector_tweak x) (sector_of guest x)) ->
    asked total (x_start a) (x_len a) from count ->
    snd (decode dec (fun _ => true) fs a) = Ok tt /\
    fst (decode dec (fun _ => true) fs a) (x_output a) = Some (firstn (count * 512) (skipn (from * 512) guest)).
Proof.
  intros enc dec fs a f total from count guest (Hde & _ & Ld) Hne Hf L Lg Hg Ha.
  destruct (C60_decode dec (fun _ => true) fs a f total from count Ld Hne Hf L Ha) as (_ & D1 & D2).
  specialize (D1 (fun _ => eq_refl)). destruct (D2 D1) as (o & Eo & Lo & To). split; [exact D1|].
  rewrite Eo. f_equal. destruct Ha as (_ & _ & C & D).
  assert (Lr : length (firstn (count * 512) (skipn (from * 512) guest)) = count * 512) by (rewrite firstn_length, skipn_length; nia).
  apply (buf_ext _ _ count).
  - lia.
  - lia.
  - intros i Hi. specialize (To i Hi). cbn [Nat.add] in To. rewrite To, Hg by lia.
    rewrite Hde by (apply sector_of_length; nia).
    now rewrite sector_of_firstn, sector_of_skipn by exact Hi.
  - rewrite !skipn_all2 by lia. reflexivity.
Qed.

(** *** What does not hold: converting an image in place *)

(** With the output path equal to the input path, encoding reports success and
    the image is gone: what is in the file is the encryption of zeros, whatever
    was in it before.  (Decoding in place also loses the image, but fails.) *)
Theorem C60_refuted_in_place :
  forall enc dec fs path f total,
    (forall t v, length v = 512 -> length (enc t v) = 512) ->
    fs path = Some f -> length f = total * 512 -> 0 < total <= 1024 ->
    let a := {| x_input := path; x_output := path; x_start := None; x_len := None |} in
    (snd (encode enc (fun _ => true) fs a) = Ok tt /\
     exists out, fst (encode enc (fun _ => true) fs a) path = Some out /\
       forall i, i < total -> sector_of out i = enc (sector_tweak i) (repeat 0%N 512)) /\
    (is_err (snd (decode dec (fun _ => true) fs a)) = true /\
     fst (decode dec (fun _ => true) fs a) path = Some []).
Proof.
  intros enc dec fs path f total He Hf L Ht a.
  assert (R : xts_range (total * 512) a = Ok (0, total)).
  { unfold xts_range, a. cbn [x_start x_len]. rewrite Nat.mod_mul, Nat.div_mul by lia. cbn [Nat.eqb negb].
    destruct (Nat.leb_spec total 0); [lia|]. now rewrite Nat.sub_0_r. }
  split.
  - unfold encode. cbn [x_input x_output a]. rewrite Hf, L. fold a. rewrite R.
    cbn [encode_loop Nat.mul]. destruct (Nat.eqb_spec total 0); [lia|]. rewrite upd_eq.
    replace (Nat.min total MAX_CHUNK) with total by (unfold MAX_CHUNK; lia).
    unfold read_exact_at. rewrite repeat_length. cbn [Nat.add]. rewrite Nat.leb_refl.
    cbn [skipn]. rewrite firstn_rep by lia.
    destruct (xts_process_sectors enc (repeat 0%N (total * 512)) 0 total He (repeat_length _ _)) as (c & E & Lc & Hs).
    cbn [Nat.add] in *. rewrite E. cbn [negb]. rewrite Nat.sub_diag.
    destruct total as [|t]; [lia|]. cbn [encode_loop Nat.eqb fst snd].
    split; [reflexivity|]. exists (write_at (repeat 0%N (S t * 512)) 0 c). rewrite upd_eq. split; [reflexivity|].
    intros i Hi. destruct (write_at_sectors (repeat 0%N (S t * 512)) (S t) 0 (S t) c (repeat_length _ _) Lc) as [_ W].
    cbn [Nat.mul Nat.add] in W. rewrite W by lia. replace ((0 <=? i) && (i <? S t)) with true by lia.
    rewrite Nat.sub_0_r, Hs by exact Hi. f_equal. now apply sector_of_zeros.
  - unfold decode. cbn [x_input x_output a]. rewrite Hf, L. fold a. rewrite R.
    cbn [decode_loop Nat.mul]. destruct (Nat.eqb_spec total 0); [lia|]. rewrite upd_eq.
    unfold read_exact_at. cbn [length Nat.add].
    replace (Nat.min total MAX_CHUNK * 512 <=? 0) with false by (unfold MAX_CHUNK; lia).
    cbn [fst snd is_err]. split; [reflexivity|]. apply upd_eq.
Qed.

(** ** Non-trivial cases *)

(** A toy cipher: add the sector number to every byte, modulo 256. *)
Definition toy (t v : list byte) : list byte := map (fun b => N.modulo (b + nth 8 t 0%N) 256) v.
Definition toy_image : list byte := concat (map (fun i => repeat (N.of_nat i) 512) (seq 1 5)).

Example C60_nonvacuous :
  let fs := upd (fun _ => None) 0 (Some toy_image) in
  let a := {| x_input := 0; x_output := 1; x_start := Some 2; x_len := Some 3 |} in
  length toy_image = 5 * 512 /\ asked 5 (x_start a) (x_len a) 2 3 /\
  snd (encode toy (fun _ => true) fs a) = Ok tt /\
  option_map (fun o => map (fun j => nth 0 (sector_of o j) 99%N) (seq 0 6)) (fst (encode toy (fun _ => true) fs a) 1)
    = Some [0; 0; 3 + 2; 4 + 3; 5 + 4; 99]%N /\
  snd (encode toy (fun k => false) fs a) = Err 4 /\
  (forall from count, ~ asked 5 (Some 5) None from count) /\
  snd (encode toy (fun _ => true) fs {| x_input := 0; x_output := 1; x_start := Some 5; x_len := None |}) = Err 2.
Proof.
  repeat split; try (vm_compute; reflexivity); try (cbn; lia).
  intros from count (A & B & C & D). lia.
Qed.

Print Assumptions C60_decode.
Print Assumptions C60_encode.
Print Assumptions C60_refused.
Print Assumptions C60_roundtrip.
Print Assumptions C60_decode_gives_guest_data.
Print Assumptions C60_refuted_in_place.
