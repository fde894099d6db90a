(** What a client of the control interface relies on (C45), independently of
    RpcModel.v's functions for lines, trimming and printing. *)
From Coq Require Import List NArith Bool String.
From Verif Require Import Base TrackerModel TrackerProps RpcModel RpcUtf8.
Import ListNotations.
Local Open Scope N_scope.

(** ** Requests: the lines of the input *)

(** The lines of the input, each with its newline; only the last may lack it. *)
Inductive lines : list byte -> list (list byte) -> Prop :=
| lines_nil : lines [] []
| lines_last : forall l, l <> [] -> ~ In 10 l -> lines l [l]
| lines_cons : forall l rest ls, ~ In 10 l -> lines rest ls -> lines (l ++ 10 :: rest) ((l ++ [10]) :: ls).

(** The characters with the Unicode property White_Space, in UTF-8. *)
Definition white : list (list byte) :=
  map encode_char ([9; 10; 11; 12; 13; 32; 0x85; 0xA0; 0x1680] ++
    map (fun i => 0x2000 + N.of_nat i) (seq 0 11) ++ [0x2028; 0x2029; 0x202F; 0x205F; 0x3000]).

(** White space only. *)
Definition blank (l : list byte) : Prop :=
  exists ws, l = List.concat ws /\ Forall (fun w => In w white) ws.

(** The text of a line: surrounding white space removed. *)
Definition starts_with (w l : list byte) : Prop := exists r, l = w ++ r.
Definition ends_with (w l : list byte) : Prop := exists r, l = r ++ w.
Definition text_of (line t : list byte) : Prop :=
  exists a b, line = a ++ t ++ b /\ blank a /\ blank b /\
    forall w, In w white -> ~ starts_with w t /\ ~ ends_with w t.

(** The requests of a list of lines: the texts of the lines that are not blank,
    up to the first line that is not UTF-8. *)
Inductive requests : list (list byte) -> list (list byte) -> Prop :=
| req_end : requests [] []
| req_garbled : forall l ls, ~ utf8_text l -> requests (l :: ls) []
| req_blank : forall l ls rs, utf8_text l -> blank l -> requests ls rs -> requests (l :: ls) rs
| req_text : forall l ls t rs, utf8_text l -> ~ blank l -> text_of l t -> requests ls rs ->
    requests (l :: ls) (t :: rs).

(** ** Answers *)

Definition activity_json (a : activity) : json :=
  match a with
  | ARead off len => JArr [JStr (text "read"); JNum off; JNum len]
  | AWrite off len => JArr [JStr (text "write"); JNum off; JNum len]
  | AFlush => JArr [JStr (text "flush")]
  end.

(** A queue: how many slots it was made with and everything it did so far. *)
Record queue := { q_size : nat; q_history : list tcall }.

Definition queue_json (q : queue) : json :=
  JArr (map activity_json
    (flat_map (fun slot => listed (in_flight (q_history q) slot)) (seq 0 (q_size q + 8)))).

Definition totals_json (q : queue) : json :=
  let h := q_history q in
  JObj [field "bytes_read" (JNum (bytes_read h mod 2 ^ 64));
        field "bytes_written" (JNum (bytes_written h mod 2 ^ 64));
        field "flush_ops" (JNum (count is_flush h mod 2 ^ 64));
        field "read_ops" (JNum (count is_read h mod 2 ^ 64));
        field "write_ops" (JNum (count is_write h mod 2 ^ 64))].

(** What the interface stands for at some moment. *)
Record situation := { si_reporter : option reporter; si_queues : list queue }.

Definition seen (si : situation) : rpc_state :=
  {| st_reporter := si_reporter si;
     st_trackers := map (fun q => tcalls (tracker_new (q_size q)) (q_history q)) (si_queues si) |}.

(** [total] stripes of [size] sectors are just enough for [sectors]. *)
Definition just_covers (total size sectors : N) : Prop :=
  sectors <= total * size /\ forall t, sectors <= t * size -> total <= t.

Definition known : list (list byte) := [text "version"; text "status"; text "queues"; text "stats"].

(** The answer to what a request parses to: a command or a parse error. *)
Inductive answer (si : situation) : list byte + list byte -> json -> Prop :=
| a_garbled : forall e, answer si (inr e) (JObj [field "error" (JStr (text "invalid request: " ++ e))])
| a_version : answer si (inl (text "version")) (JObj [field "version" (JStr (text "0.5.1"))])
| a_no_status : si_reporter si = None -> answer si (inl (text "status")) (JObj [field "status" JNull])
| a_status : forall r total, si_reporter si = Some r ->
    just_covers total (sr_stripe_sectors r) (sr_target_sectors r) ->
    answer si (inl (text "status"))
      (JObj [field "status" (JObj [field "stripes" (JObj
        [field "fetched" (JNum (sr_fetched r)); field "source" (JNum (sr_source r));
         field "total" (JNum total)])])])
| a_queues : answer si (inl (text "queues"))
    (JObj [field "queues" (JArr (map queue_json (si_queues si)))])
| a_stats : answer si (inl (text "stats"))
    (JObj [field "stats" (JObj [field "queues" (JArr (map totals_json (si_queues si)))])])
| a_unknown : forall c, ~ In c known ->
    answer si (inl c) (JObj [field "error" (JStr (text "unknown command: " ++ c))]).

(** ** The client's side: reading the answers back *)

(** The response stream cut at newlines (each answer ends with one). *)
Fixpoint cut (cur : list byte) (l : list byte) : list (list byte) :=
  match l with
  | [] => match cur with [] => [] | _ => [rev cur] end
  | b :: r => if b =? 10 then rev cur :: cut [] r else cut (b :: cur) r
  end.

(** A reader for JSON without white space. *)
Fixpoint read_digits (l : list byte) : Decimal.uint * list byte :=
  match l with
  | [] => (Decimal.Nil, [])
  | b :: r =>
      let (u, rest) := read_digits r in
      match b with
      | 48 => (Decimal.D0 u, rest) | 49 => (Decimal.D1 u, rest) | 50 => (Decimal.D2 u, rest)
      | 51 => (Decimal.D3 u, rest) | 52 => (Decimal.D4 u, rest) | 53 => (Decimal.D5 u, rest)
      | 54 => (Decimal.D6 u, rest) | 55 => (Decimal.D7 u, rest) | 56 => (Decimal.D8 u, rest)
      | 57 => (Decimal.D9 u, rest)
      | _ => (Decimal.Nil, l)
      end
  end.

Definition unhex (b : byte) : N := if b <? 58 then b - 48 else b - 87.

(** After the opening quote. *)
Fixpoint read_string (l : list byte) : option (list byte * list byte) :=
  let cons b r := match read_string r with Some (s, rest) => Some (b :: s, rest) | None => None end in
  match l with
  | [] => None
  | b :: r =>
      if b =? 34 then Some ([], r)
      else if b =? 92 then
        match r with
        | e :: r1 =>
            if e =? 117 then
              match r1 with
              | _ :: _ :: h1 :: h2 :: r2 => cons (16 * unhex h1 + unhex h2) r2
              | _ => None
              end
            else if e =? 98 then cons 8 r1
            else if e =? 102 then cons 12 r1
            else if e =? 110 then cons 10 r1
            else if e =? 114 then cons 13 r1
            else if e =? 116 then cons 9 r1
            else cons e r1
        | [] => None
        end
      else cons b r
  end.

Definition expect (c : byte) (l : list byte) : option (list byte) :=
  match l with b :: r => if b =? c then Some r else None | [] => None end.

Section Reader.
  Context {A : Type} (rd : list byte -> option (A * list byte)).

  (** A comma before each element; [close] ends the sequence. *)
  Fixpoint read_seq (close : byte) (n : nat) (l : list byte) : option (list A * list byte) :=
    match n, l with
    | S n', b :: r =>
        if b =? close then Some ([], r)
        else if b =? 44 then
          match rd r with
          | Some (v, r1) =>
              match read_seq close n' r1 with Some (vs, r2) => Some (v :: vs, r2) | None => None end
          | None => None
          end
        else None
    | _, _ => None
    end.

  (** "key":value *)
  Definition read_pair (l : list byte) : option ((list byte * A) * list byte) :=
    match expect 34 l with
    | Some r1 =>
        match read_string r1 with
        | Some (k, r2) =>
            match expect 58 r2 with
            | Some r3 => match rd r3 with Some (v, r4) => Some ((k, v), r4) | None => None end
            | None => None
            end
        | None => None
        end
    | None => None
    end.
End Reader.

(** The first element of a sequence has no comma. *)
Definition first_comma (close : byte) (r : list byte) : list byte :=
  match r with b :: _ => if b =? close then r else 44 :: r | [] => [] end.

Fixpoint read_json (fuel : nat) (l : list byte) : option (json * list byte) :=
  match fuel, l with
  | S f, b :: r =>
      if b =? 110 then match strip_prefix (text "ull") r with Some r1 => Some (JNull, r1) | None => None end
      else if b =? 34 then
        match read_string r with Some (s, r1) => Some (JStr s, r1) | None => None end
      else if b =? 91 then
        match read_seq (read_json f) 93 (List.length l) (first_comma 93 r) with
        | Some (vs, r1) => Some (JArr vs, r1) | None => None end
      else if b =? 123 then
        match read_seq (read_pair (read_json f)) 125 (List.length l) (first_comma 125 r) with
        | Some (vs, r1) => Some (JObj vs, r1) | None => None end
      else if b =? 45 then
        match read_digits r with (Decimal.Nil, _) => None | (u, r1) => Some (JNeg (N.of_uint u), r1) end
      else match read_digits l with (Decimal.Nil, _) => None | (u, r1) => Some (JNum (N.of_uint u), r1) end
  | _, _ => None
  end.

(** The value of a whole line. *)
Definition decode (l : list byte) : option json :=
  match read_json (List.length l) l with Some (v, []) => Some v | _ => None end.
