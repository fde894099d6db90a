(** Specification side of C86: what a backend leaves behind when it stops, and what a
    device's life through any number of runs is. *)
From Coq Require Import List Arith NArith Bool.
Import ListNotations.
From Verif Require Import Base DiskSpec MetadataModel LazyModel LazyState LazySpec CryptModel SetupModel LayerModel MetaLayerModel StackModel StackSpec.
From Verif Require LayerProps GuestSpec UblkDiskSpec.

(** ** Histories end to end *)

(** Requests are told apart by serial numbers; those of a later run are moved out of the
    way of the earlier ones. *)
Definition renumber {V} (K : nat) (i : titem V) : titem V :=
  match i with
  | TIssue n q id r => TIssue (K + n) q id r
  | TDone n q id ok data => TDone (K + n) q id ok data
  | TCrash => TCrash
  end.

Definition numbered_upto {V} (K : nat) (t : list (titem V)) : Prop :=
  forall n q id r, In (TIssue n q id r) t -> n <= K.

(** [joined ts t]: [t] is the histories [ts], one after the other. *)
Inductive joined {V} : list (list (titem V)) -> list (titem V) -> Prop :=
| j_nil : joined [] []
| j_cons : forall t ts r K, numbered_upto K t -> joined ts r -> joined (t :: ts) (t ++ map (renumber K) r).

(** The backend is gone: killed, or with the machine. *)
Definition stopped {V} (t : list (titem V)) : Prop := exists t0, t = t0 ++ [TCrash].

(** ** What is left behind *)

(** No file but those at [data_path] and [metadata_path] was changed, and these two are as
    long as they were. *)
Definition unchanged_but (c : config) (w w' : world) : Prop :=
  (forall p, p <> c_data c -> c_metadata c <> Some p -> w_file w' p = w_file w p) /\
  (forall p, w_statfs w' p = w_statfs w p) /\ w_source w' = w_source w /\
  (forall p f, w_file w p = Some f -> exists f', w_file w' p = Some f' /\ length f' = length f).

Section Left.
Variable xts : list byte -> list byte -> (list byte -> list byte -> list byte) * (list byte -> list byte -> list byte).

(** The metadata file holds [buf], seen through the cipher. *)
Definition metadata_text (w : world) (c : config) (buf : list byte) : Prop :=
  exists p f, c_metadata c = Some p /\ w_file w p = Some f /\
    decrypt (cipher_of xts c) f (length f / 512) = Ok buf /\ bytes_ok buf.

(** The metadata file of [w'] holds [fm], seen through the cipher. *)
Definition holds_metadata (w' : world) (c : config) (fm : nat -> option sector) : Prop :=
  exists buf, metadata_text w' c buf /\ forall x, x < length buf / 512 -> fm x = Some (firstn 512 (skipn (512 * x) buf)).

(** The data file of [w'] holds [fb], seen through the cipher. *)
Definition holds_data (w' : world) (c : config) (fb : nat -> option sector) : Prop :=
  forall x, x < length (file_of w' (c_data c)) / 512 -> fb x = Some (data_sector xts w' c x).

(** The steps of a run but for the completions from the metadata device. *)
Definition other_steps {V} (pes : list (pevent V)) : list (oevent V) :=
  flat_map (fun e => match e with PStep e => [e] | PMeta _ _ => [] end) pes.

(** The backend [l], started in [w], worked with the history [g] until it was stopped, and
    left [w'] behind.  The devices over the data file and the metadata file are at work as
    in [serves]; of each sector not known to be on the medium [w'] has what the crash left
    there. *)
Definition left_by (w : world) (c : config) (l : launched) (g : list (titem sector)) (w' : world) : Prop :=
  unchanged_but c w w' /\
  match l_bdev l, l_lazy l with
  | DLazy base _ _, Some (k, h) =>
    exists p meta pes s g0 b m fb fm,
      c_metadata c = Some p /\ build_block_device w p c false = Ok meta /\ (exists buf, metadata_text w c buf) /\
      LayerProps.requests_fit k (other_steps pes) /\ prun k (oinit k h) pes = Some (s, g0, b, m) /\ g = g0 ++ [TCrash] /\
      serves xts w base (b ++ [TCrash]) fb /\ holds_data w' c fb /\
      serves xts w meta (m ++ [TCrash]) fm /\ holds_metadata w' c fm
  | d, None => exists fb, stopped g /\ serves xts w d g fb /\ holds_data w' c fb
  | _, _ => False
  end.

(** Who uses the device: a guest through vhost-user, or the kernel's driver through ublk.
    [t]: what they note. *)
Inductive used_by (size : nat) (g t : list (titem sector)) : Prop :=
| by_guest : forall valid qsize did nslots bufsize m0 gs P,
    GuestSpec.session valid qsize did nslots bufsize size m0 gs P g t -> used_by size g t
| by_driver : forall max depth us P,
    (max < 2 ^ 31)%N -> UblkDiskSpec.session max depth size us P g t -> used_by size g t.

(** A device's life: the backend comes up, is used and is stopped; and so on, with what it
    left behind.  [ts]: what was noted in each run; [w']: the world at the end. *)
Inductive life (c : config) (blank : sector) : world -> list (list (titem sector)) -> world -> Prop :=
| life_end : forall w, life c blank w [] w
| life_run : forall w l g t w1 ts w2,
    launch w xts c blank = Ok l -> left_by w c l g w1 ->
    used_by (sector_count (l_bdev l)) g t -> stopped t ->
    life c blank w1 ts w2 -> life c blank w (t :: ts) w2.

End Left.

(** The raw image is a file of its own. *)
Definition image_apart (c : config) : Prop :=
  forall p a r, c_source c = Some (CRaw p a r) -> p <> c_data c /\ c_metadata c <> Some p.
