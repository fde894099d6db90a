(** C42: secret resolution is complete and terminates. *)
From Coq Require Import List NArith ZArith Bool Arith Lia String Permutation.
From Verif Require Import Base BaseFacts SecretsModel SecretsSpec SecretsProofs.
Import ListNotations.

(** Names in a configuration are distinct (keys of a map). *)
Definition distinct (defs : list (string * secret_def)) : Prop := NoDup (map fst defs).

(** Resolving succeeds exactly when every secret has a value: its chain of
    keys is defined and finite, every source may be used and decodes, and
    every ciphertext decrypts under its key and its own name.  It never runs
    out of passes: with [n] secrets, [n] passes are enough. *)
Theorem C42_exact : forall w dz defs, distinct defs ->
  (is_ok (resolve_secrets w defs dz) = true <->
   forall name, In name (map fst defs) -> exists b, value_of w dz defs name b) /\
  is_panic (resolve_secrets w defs dz) = false.
Proof.
  intros w dz defs Hnd. unfold resolve_secrets.
  destruct (existsb (kek_missing defs) defs) eqn:Em.
  - split; [|reflexivity]. split; [discriminate|].
    intros Hall. exfalso.
    assert (Hf : existsb (kek_missing defs) defs = false); [|congruence].
    apply missing_false. intros name def kek Hin Hk.
    destruct (Hall name) as [b Hb]; [apply in_map_iff; exists (name, def); auto|].
    inversion Hb as [n' d' x' Hin' Hk' Hp' Hs'|n' d' kek' kb' ct' x' Hin' Hk' Hv' Hp' Hs' Hg']; subst;
      rewrite (def_det defs Hnd _ _ _ Hin' Hin) in *; [congruence|].
    assert (kek' = kek) by congruence. subst. now apply (value_of_defined w dz defs kek kb').
  - split.
    + split.
      * intros H. destruct (loop w dz (List.length defs) (List.length defs) defs []) as [r|?|] eqn:El; try discriminate.
        destruct (loop_sound w dz defs (List.length defs) defs [] r (inv_start w dz defs) El) as [Hg Hp].
        intros name Hin. apply (Permutation_in name (Permutation_sym Hp)) in Hin.
        apply in_map_iff in Hin. destruct Hin as ([n b] & <- & Hin). exists b. now apply Hg.
      * intros Hall. apply (loop_complete w dz defs Hnd Hall); auto. apply inv_start.
    + pose proof (loop_no_panic w dz defs (List.length defs) defs [] (inv_start w dz defs) (le_n _)).
      destruct (loop w dz (List.length defs) (List.length defs) defs []); cbn; congruence.
Qed.

(** The resolved map holds exactly the values of the secrets. *)
Theorem C42_values : forall w dz defs r, distinct defs ->
  resolve_secrets w defs dz = Ok r ->
  (forall name b, lookup name r = Some b <-> value_of w dz defs name b) /\
  (forall name, In name (map fst r) <-> In name (map fst defs)).
Proof.
  intros w dz defs r Hnd H. unfold resolve_secrets in H.
  destruct (existsb (kek_missing defs) defs) eqn:Em; [discriminate|].
  destruct (loop_sound w dz defs (List.length defs) defs [] r (inv_start w dz defs) H) as [Hg Hp].
  assert (Hndr : NoDup (map fst r)) by (apply (Permutation_NoDup (Permutation_sym Hp) Hnd)).
  split.
  - intros name b. split; intros Hb.
    + apply Hg. now apply lookup_in.
    + pose proof (value_of_defined w dz defs name b Hb) as Hin.
      apply (Permutation_in name (Permutation_sym Hp)) in Hin.
      destruct (lookup_some_key _ name r Hin) as [b' Hb'].
      assert (b' = b); [|congruence].
      apply (value_of_det w dz defs Hnd name); auto. apply Hg. now apply lookup_in.
  - intros name. split; apply Permutation_in; [auto|now apply Permutation_sym].
Qed.

(** A reference to a secret that is not defined is an error. *)
Theorem C42_missing : forall w dz defs name def kek, distinct defs ->
  In (name, def) defs -> sd_kek def = Some kek -> ~ In kek (map fst defs) ->
  is_err (resolve_secrets w defs dz) = true.
Proof.
  intros w dz defs name def kek Hnd Hin Hk Hno. unfold resolve_secrets.
  destruct (existsb (kek_missing defs) defs) eqn:Em; [reflexivity|].
  exfalso. apply Hno. apply (proj1 (missing_false defs) Em name def); auto.
Qed.

(** A secret that is, directly or through others, encrypted under itself is an
    error, whatever else is configured. *)
Theorem C42_cycle : forall w dz defs name, distinct defs ->
  under defs name name -> is_err (resolve_secrets w defs dz) = true.
Proof.
  intros w dz defs name Hnd Hu. destruct (C42_exact w dz defs Hnd) as [Hiff Hnp].
  destruct (resolve_secrets w defs dz) as [r|?|]; [|reflexivity|discriminate].
  exfalso. assert (Hin : In name (map fst defs)).
  { inversion Hu as [? d ? Hin|? d ? ? Hin]; subst; apply in_map_iff; exists (name, d); auto. }
  destruct (proj1 Hiff eq_refl name Hin) as [b Hb].
  now apply (value_acyclic w dz defs Hnd name b).
Qed.

(** The result does not depend on the order in which the hash map of
    definitions is walked. *)
Theorem C42_order : forall w dz defs defs', distinct defs -> Permutation defs defs' ->
  is_ok (resolve_secrets w defs dz) = is_ok (resolve_secrets w defs' dz) /\
  forall r r', resolve_secrets w defs dz = Ok r -> resolve_secrets w defs' dz = Ok r' ->
    forall name, lookup name r = lookup name r'.
Proof.
  intros w dz defs defs' Hnd Hp.
  assert (Hnd' : distinct defs') by (unfold distinct; apply (Permutation_NoDup (Permutation_map fst Hp) Hnd)).
  assert (Hval : forall d d' name b, Permutation d d' -> value_of w dz d name b -> value_of w dz d' name b).
  { intros d d' name b Hpd Hv. induction Hv as [name def b Hin Hk Hpm Hs|name def kek kb ct b Hin Hk Hv IH Hpm Hs Hg].
    - apply (vo_plain w dz d' name def); auto. apply (Permutation_in _ Hpd Hin).
    - apply (vo_encrypted w dz d' name def kek kb ct); auto. apply (Permutation_in _ Hpd Hin). }
  assert (Hone : forall d d', distinct d -> distinct d' -> Permutation d d' ->
     is_ok (resolve_secrets w d dz) = true -> is_ok (resolve_secrets w d' dz) = true).
  { intros d d' Hd Hd' Hpd H. apply (C42_exact w dz d' Hd'). intros name Hin.
    apply (Permutation_in name (Permutation_sym (Permutation_map fst Hpd))) in Hin.
    destruct (proj1 (proj1 (C42_exact w dz d Hd)) H name Hin) as [b Hb]. exists b.
    now apply (Hval d). }
  split.
  - destruct (is_ok (resolve_secrets w defs dz)) eqn:E.
    + symmetry. now apply (Hone defs).
    + destruct (is_ok (resolve_secrets w defs' dz)) eqn:E'; auto.
      assert (is_ok (resolve_secrets w defs dz) = true); [|congruence].
      apply (Hone defs' defs); auto. now apply Permutation_sym.
  - intros r r' E E' name.
    destruct (C42_values w dz defs r Hnd E) as [Hv _].
    destruct (C42_values w dz defs' r' Hnd' E') as [Hv' _].
    destruct (lookup name r) as [b|] eqn:El.
    + symmetry. apply Hv'. apply (Hval defs); auto. now apply Hv.
    + destruct (lookup name r') as [b|] eqn:El'; auto.
      apply Hv' in El'. apply (Hval defs' defs) in El'; [|now apply Permutation_sym].
      apply Hv in El'. congruence.
Qed.

(** Every resolved secret not encrypted by another is at most 8192 bytes. *)
Theorem C42_bounded : forall w dz defs r name def b, distinct defs ->
  resolve_secrets w defs dz = Ok r -> In (name, def) defs -> sd_kek def = None ->
  lookup name r = Some b -> (N.of_nat (List.length b) <= 8192)%N.
Proof.
  intros w dz defs r name def b Hnd H Hin Hk Hl.
  apply (proj1 (C42_values w dz defs r Hnd H)) in Hl.
  inversion Hl as [n' d' x' Hin' Hk' Hp' Hs'|n' d' kek' kb' ct' x' Hin' Hk' Hv' Hp' Hs' Hg']; subst;
    rewrite (def_det defs Hnd _ _ _ Hin' Hin) in *; [|congruence].
  inversion Hs'; subst; auto.
Qed.

(** ** The hypotheses are met: a chain of three, given in the worst order. *)
Local Open Scope string_scope.
Definition ex_world : world := {|
  w_open := fun p => if String.eqb p "/dev/fd/3" then Some (false, Some [1; 2; 3]%N) else None;
  w_getenv := fun _ => None;
  w_base64 := fun b => if (List.length b =? 4)%nat then Some [9; 9; 9]%N else None;
  (* a toy cipher: the first byte of the ciphertext must be the key's, the
     second the length of the name *)
  w_gcm := fun key aad ct =>
    match key, ct with
    | k :: _, c :: n :: rest =>
        if (k =? c)%N && (n =? N.of_nat (List.length aad))%N then Some rest else None
    | _, _ => None
    end
|}.
Definition ex_dz : danger_zone := {|
  dz_enabled := false; dz_unencrypted_disk := false; dz_inline_secrets := false;
  dz_regular_file := false; dz_unencrypted_connection := false; dz_env_secrets := false |}.
Definition chr (n : N) : string := String (Ascii.ascii_of_N n) "".
Definition ex_defs : list (string * secret_def) :=
  [("xts", {| sd_source := SInline (chr 7 ++ chr 3 ++ "key"); sd_encoding := Plaintext; sd_kek := Some "mid" |});
   ("mid", {| sd_source := SInline (chr 1 ++ chr 3 ++ chr 7); sd_encoding := Plaintext; sd_kek := Some "root" |});
   ("root", {| sd_source := SFile "/dev/fd/3"; sd_encoding := Plaintext; sd_kek := None |})].

Example C42_nonvacuous :
  distinct ex_defs /\
  match resolve_secrets ex_world ex_defs ex_dz with
  | Ok r => lookup "xts" r = Some (bytes_of "key") /\ lookup "mid" r = Some [7%N] /\
            lookup "root" r = Some [1; 2; 3]%N
  | _ => False
  end.
Proof.
  split; [|vm_compute; auto].
  unfold distinct. cbn. repeat constructor; cbn; intuition discriminate.
Qed.

Example C42_cycle_nonvacuous :
  let a := {| sd_source := SInline "x"; sd_encoding := Plaintext; sd_kek := Some "b" |} in
  let b := {| sd_source := SInline "y"; sd_encoding := Plaintext; sd_kek := Some "a" |} in
  let defs := [("a", a); ("b", b); ("root", snd (nth 2 ex_defs ("", a)))] in
  under defs "a" "a" /\ resolve_secrets ex_world defs ex_dz = Err 10 /\
  resolve_secrets ex_world [("a", a)] ex_dz = Err 11.
Proof.
  split; [|split; vm_compute; reflexivity].
  apply (under_more _ "a" {| sd_source := SInline "x"; sd_encoding := Plaintext; sd_kek := Some "b" |} "b");
    [cbn; auto|reflexivity|].
  apply (under_one _ "b" {| sd_source := SInline "y"; sd_encoding := Plaintext; sd_kek := Some "a" |});
    [cbn; auto|reflexivity].
Qed.

Example C42_order_nonvacuous :
  Permutation ex_defs (rev ex_defs) /\ is_ok (resolve_secrets ex_world (rev ex_defs) ex_dz) = true.
Proof. split; [apply Permutation_rev|vm_compute; reflexivity]. Qed.

Print Assumptions C42_exact.
Print Assumptions C42_values.
Print Assumptions C42_missing.
Print Assumptions C42_cycle.
Print Assumptions C42_order.
Print Assumptions C42_bounded.
