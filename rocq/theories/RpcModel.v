(** The control interface (src/backends/common/rpc.rs): one client connection. *)
From Coq Require Import List NArith Bool String Ascii.
From Verif Require Import Base TrackerModel.
Import ListNotations.
Local Open Scope N_scope.

(** ** Text *)

(** The bytes of an ASCII literal. *)
Fixpoint text (s : string) : list byte :=
  match s with EmptyString => [] | String c r => N_of_ascii c :: text r end.

(** core::str::from_utf8, which BufRead::read_line applies to each line
    (rpc.rs:161): the well-formed byte sequences of the Unicode standard. *)
Definition cont (b : byte) : bool := (128 <=? b) && (b <=? 191).
Fixpoint utf8_valid (fuel : nat) (l : list byte) : bool :=
  match fuel with
  | O => true
  | S f =>
      match l with
      | [] => true
      | a :: r =>
          if a <? 128 then utf8_valid f r
          else if (194 <=? a) && (a <=? 223) then
            match r with b :: r => cont b && utf8_valid f r | _ => false end
          else if (224 <=? a) && (a <=? 239) then
            match r with
            | b :: c :: r =>
                cont b && cont c && negb ((a =? 224) && (b <? 160)) && negb ((a =? 237) && (159 <? b))
                && utf8_valid f r
            | _ => false
            end
          else if (240 <=? a) && (a <=? 244) then
            match r with
            | b :: c :: d :: r =>
                cont b && cont c && cont d && negb ((a =? 240) && (b <? 144)) && negb ((a =? 244) && (143 <? b))
                && utf8_valid f r
            | _ => false
            end
          else false
      end
  end.
Definition is_utf8 (l : list byte) : bool := utf8_valid (List.length l) l.

(** The characters str::trim removes (rpc.rs:164): those with the Unicode
    property White_Space, in UTF-8. *)
Definition white_space : list (list byte) :=
  [[9]; [10]; [11]; [12]; [13]; [32]; [194; 133]; [194; 160]; [225; 154; 128];
   [226; 128; 128]; [226; 128; 129]; [226; 128; 130]; [226; 128; 131]; [226; 128; 132];
   [226; 128; 133]; [226; 128; 134]; [226; 128; 135]; [226; 128; 136]; [226; 128; 137];
   [226; 128; 138]; [226; 128; 168]; [226; 128; 169]; [226; 128; 175]; [226; 129; 159];
   [227; 128; 128]].

Fixpoint strip_prefix (p l : list byte) : option (list byte) :=
  match p, l with
  | [], _ => Some l
  | a :: p', b :: l' => if a =? b then strip_prefix p' l' else None
  | _ :: _, [] => None
  end.
Fixpoint strip_one (ws : list (list byte)) (l : list byte) : option (list byte) :=
  match ws with
  | [] => None
  | w :: ws' => match strip_prefix w l with Some r => Some r | None => strip_one ws' l end
  end.
Fixpoint strip (fuel : nat) (ws : list (list byte)) (l : list byte) : list byte :=
  match fuel with
  | O => l
  | S f => match strip_one ws l with Some r => strip f ws r | None => l end
  end.
Definition trim_start (l : list byte) : list byte := strip (List.length l) white_space l.
Definition trim_end (l : list byte) : list byte :=
  rev (strip (List.length l) (map (@rev byte) white_space) (rev l)).
Definition trim (l : list byte) : list byte := trim_end (trim_start l).

(** BufRead::read_line on a connection with these bytes still to come: up to
    and including the next newline, or all of it. *)
Fixpoint read_line (l : list byte) : list byte * list byte :=
  match l with
  | [] => ([], [])
  | b :: r => if b =? 10 then ([b], r) else let (x, y) := read_line r in (b :: x, y)
  end.

(** ** JSON values as serde_json prints them *)

Inductive json : Type :=
| JNull
| JNum (n : N)
| JNeg (n : N)                       (* -n; no answer of the RPC server has one *)
| JStr (s : list byte)
| JArr (l : list json)
| JObj (l : list (list byte * json)).

Definition hex (d : N) : byte := if d <? 10 then 48 + d else 87 + d.

(** serde_json's format_escaped_str: byte by byte. *)
Definition escape (b : byte) : list byte :=
  if b =? 34 then [92; 34]
  else if b =? 92 then [92; 92]
  else if b =? 8 then [92; 98]
  else if b =? 12 then [92; 102]
  else if b =? 10 then [92; 110]
  else if b =? 13 then [92; 114]
  else if b =? 9 then [92; 116]
  else if b <? 32 then [92; 117; 48; 48; hex (b / 16); hex (b mod 16)]
  else [b].
Definition print_string (s : list byte) : list byte := 34 :: flat_map escape s ++ [34].

Fixpoint print_uint (u : Decimal.uint) : list byte :=
  match u with
  | Decimal.Nil => [] | Decimal.D0 u => 48 :: print_uint u | Decimal.D1 u => 49 :: print_uint u | Decimal.D2 u => 50 :: print_uint u
  | Decimal.D3 u => 51 :: print_uint u | Decimal.D4 u => 52 :: print_uint u | Decimal.D5 u => 53 :: print_uint u
  | Decimal.D6 u => 54 :: print_uint u | Decimal.D7 u => 55 :: print_uint u | Decimal.D8 u => 56 :: print_uint u
  | Decimal.D9 u => 57 :: print_uint u
  end.
Definition print_num (n : N) : list byte := print_uint (N.to_uint n).

Fixpoint join_comma (l : list (list byte)) : list byte :=
  match l with [] => [] | [x] => x | x :: r => x ++ 44 :: join_comma r end.

(** serde_json::to_vec, the compact form. *)
Fixpoint print (v : json) : list byte :=
  match v with
  | JNull => text "null"
  | JNum n => print_num n
  | JNeg n => 45 :: print_num n
  | JStr s => print_string s
  | JArr l => 91 :: join_comma (map print l) ++ [93]
  | JObj l => 123 :: join_comma (map (fun kv => print_string (fst kv) ++ 58 :: print (snd kv)) l) ++ [125]
  end.

(** ** Requests *)

(** StatusReporter, status_report.rs:27-51: the stripe size and counters of the
    shared state and the size of the disk. *)
Record reporter := {
  sr_stripe_sectors : N;
  sr_source : N;
  sr_fetched : N;
  sr_target_sectors : N
}.

(** RpcState, rpc.rs:31-34: what the interface sees when a request is handled. *)
Record rpc_state := {
  st_reporter : option reporter;
  st_trackers : list tracker
}.

Definition field (k : string) (v : json) : list byte * json := (text k, v).

(** VERSION, rpc.rs:28 (Cargo.toml:3). *)
Definition VERSION : list byte := text "0.5.1".

(** StatusReporter::report, status_report.rs:42-50; div_ceil panics on zero.
    The maps of serde_json are sorted by key. *)
Definition report (r : reporter) : res json :=
  if sr_stripe_sectors r =? 0 then Panic
  else
    let q := sr_target_sectors r / sr_stripe_sectors r in
    let total := if sr_target_sectors r mod sr_stripe_sectors r =? 0 then q else q + 1 in
    Ok (JObj [field "stripes" (JObj [field "fetched" (JNum (sr_fetched r));
                                     field "source" (JNum (sr_source r));
                                     field "total" (JNum total)])]).

Definition io_json (x : io_kind * N * N) : json :=
  match x with
  | (KRead, off, len) => JArr [JStr (text "read"); JNum off; JNum len]
  | (KWrite, off, len) => JArr [JStr (text "write"); JNum off; JNum len]
  | (KFlush, _, _) => JArr [JStr (text "flush")]
  end.

(** queue_snapshots, rpc.rs:190-207.  Each tracker is read at one instant here;
    C40 is about reading while the queue runs. *)
Fixpoint queue_snapshots (l : list tracker) : res (list json) :=
  match l with
  | [] => Ok []
  | t :: r =>
      let! s := snapshot t in
      let! rest := queue_snapshots r in
      Ok (JArr (map io_json s) :: rest)
  end.

Definition stats_json (t : tracker) : json :=
  let '(bytes_read, bytes_written, read_ops, write_ops, flush_ops) := cumulative_stats t in
  JObj [field "bytes_read" (JNum bytes_read); field "bytes_written" (JNum bytes_written);
        field "flush_ops" (JNum flush_ops); field "read_ops" (JNum read_ops);
        field "write_ops" (JNum write_ops)].

(** process_request, rpc.rs:209-246. *)
Definition process_request (command : list byte) (s : rpc_state) : res json :=
  if bytes_eqb command (text "version") then Ok (JObj [field "version" (JStr VERSION)])
  else if bytes_eqb command (text "status") then
    let! status := match st_reporter s with None => Ok JNull | Some r => report r end in
    Ok (JObj [field "status" status])
  else if bytes_eqb command (text "queues") then
    let! q := queue_snapshots (st_trackers s) in
    Ok (JObj [field "queues" (JArr q)])
  else if bytes_eqb command (text "stats") then
    Ok (JObj [field "stats" (JObj [field "queues" (JArr (map stats_json (st_trackers s)))])])
  else Ok (JObj [field "error" (JStr (text "unknown command: " ++ command))]).

(** ** A connection *)

Section Client.
  (** serde_json::from_str::<RpcRequest>: the command, or the message of the
      parse error.  Not modelled further. *)
  Context (parse : list byte -> list byte + list byte).
  (** What the interface sees when it handles the [i]-th request, and whether
      sending the [i]-th answer works ([Some k]: an error after [k] bytes). *)
  Context (state_at : nat -> rpc_state).
  Context (send_fails : nat -> option nat).

  (** rpc.rs:169-174. *)
  Definition respond (trimmed : list byte) (s : rpc_state) : res json :=
    match parse trimmed with
    | inl command => process_request command s
    | inr e => Ok (JObj [field "error" (JStr (text "invalid request: " ++ e))])
    end.

  (** send_response, rpc.rs:248-253. *)
  Definition payload (v : json) : list byte := print v ++ [10].

  (** handle_client, rpc.rs:155-188, from the [i]-th request on, with [input]
      still to be read; the bytes sent.  A panic ends the connection's thread.
      An I/O error while reading is the end of [input]. *)
  Fixpoint handle_client (fuel : nat) (i : nat) (input : list byte) : res (list byte) :=
    match fuel with
    | O => Ok []
    | S f =>
        let (line, rest) := read_line input in
        match line with
        | [] => Ok []
        | _ =>
            if negb (is_utf8 line) then Ok []
            else
              match trim line with
              | [] => handle_client f i rest
              | trimmed =>
                  let! v := respond trimmed (state_at i) in
                  match send_fails i with
                  | Some k => Ok (firstn k (payload v))
                  | None => let! more := handle_client f (S i) rest in Ok (payload v ++ more)
                  end
              end
        end
    end.
  Definition client (input : list byte) : res (list byte) :=
    handle_client (S (List.length input)) 0 input.
End Client.
