(** A concrete instance of the external primitives meeting [lawful], used only by
    the non-vacuity examples and by the counterexamples: the formats are the real ones,
    the ciphers and digests are toys. *)
From Coq Require Import List Arith NArith ZArith Bool Lia ZifyBool ZifyNat ZifyN.
Import ListNotations.
From Verif Require Import Base BaseFacts CryptSpec CryptProps KeyModel ArchiveModel ArchiverModel ArchiveSpec ArchiveProofs
  WireModel WireProofs.
Ltac Zify.zify_post_hook ::= Z.div_mod_to_equations.

(** Toy digests and tags depend on their input. *)
Definition toy_sha (d : list byte) : list byte := le_bytes 32 (le_val (firstn 16 d)).
Definition toy_mac (k m : list byte) : list byte := le_bytes 32 (le_val k + le_val m * 3).
Definition toy_seal (k n a p : list byte) : list byte := p ++ le_bytes 16 (le_val a).
Definition toy_open (k n a ct : list byte) : option (list byte) :=
  if bytes_eqb (skipn (length ct - 16) ct) (le_bytes 16 (le_val a)) then Some (firstn (length ct - 16) ct) else None.
(** The toy cipher adds the low byte of the sector number and the key's first byte to every byte. *)
Definition toy_shift (x b : N) : N := if (b <? 256)%N then ((b + x) mod 256)%N else b.
Definition toy_xenc (k : list byte * list byte) (t s : list byte) : list byte :=
  map (toy_shift (nth 8 t 0 + hd 0 (fst k))%N) s.
Definition toy_xdec (k : list byte * list byte) (t s : list byte) : list byte :=
  map (toy_shift (256 - (nth 8 t 0 + hd 0 (fst k)) mod 256)%N) s.
Definition toy_crypto : prims :=
  mk_prims (fun _ d => d) (fun d => Some d) toy_xenc toy_xdec toy_sha toy_mac (fun _ => []) (fun _ => None)
    (fun _ => []) (fun _ => None) (fun _ => []) (fun _ => None) toy_seal toy_open.
Definition toy_prims : prims := with_wire toy_crypto.

Lemma toy_crypto_lawful : crypto_lawful toy_crypto.
Proof.
  constructor; cbn [toy_crypto zenc zdec xenc xdec sha mac seal open_].
  - reflexivity.
  - intros k. unfold tweakable_cipher, toy_xenc, toy_xdec. split; [|split; intros; now rewrite map_length].
    intros t v _. rewrite map_map. rewrite <- (map_id v) at 2. apply map_ext. intros b. unfold toy_shift.
    set (x := (nth 8 t 0 + hd 0 (fst k))%N). clearbody x. destruct (b <? 256)%N eqn:E; [|now rewrite E].
    replace ((b + x) mod 256 <? 256)%N with true by lia.
    rewrite N.add_mod_idemp_l by discriminate. pose proof (N.div_mod x 256 ltac:(discriminate)).
    replace (b + x + (256 - x mod 256))%N with (b + (x / 256 + 1) * 256)%N by lia.
    rewrite N.mod_add by discriminate. apply N.mod_small. lia.
  - intros k t v H. unfold toy_xenc, bytes_ok, byte_ok in *. rewrite Forall_map. eapply Forall_impl; [|exact H].
    intros b Hb. unfold toy_shift. cbn beta in Hb. destruct (b <? 256)%N; lia.
  - intros d. split; [apply le_bytes_length|apply le_bytes_ok].
  - intros k m. split; [apply le_bytes_length|apply le_bytes_ok].
  - intros k n a p. unfold toy_open, toy_seal. rewrite app_length, le_bytes_length.
    replace (length p + 16 - 16) with (length p) by lia.
    rewrite skipn_app_exact by reflexivity. rewrite bytes_eqb_refl. now rewrite firstn_app_exact.
  - intros k n a p. unfold toy_seal. now rewrite app_length, le_bytes_length.
  - intros k n a p H. unfold toy_seal. apply bytes_ok_app. split; [exact H|apply le_bytes_ok].
Qed.

Lemma toy_lawful : lawful toy_prims.
Proof. apply wire_lawful, toy_crypto_lawful. Qed.
