(** Two inspection tools: [dump-metadata], which lists the stripes with each flag,
    and [remote-stripe-shell], an interactive client of the stripe server. *)
From Coq Require Import List NArith Bool String.
From Verif Require Import Base MetadataModel RpcModel.
Import ListNotations.
Local Open Scope N_scope.

(** ** dump-metadata *)

(** [Vec::join(", ")]. *)
Fixpoint join_comma_space (l : list (list byte)) : list byte :=
  match l with [] => [] | [x] => x | x :: r => x ++ 44 :: 32 :: join_comma_space r end.

(** bin/dump-metadata.rs:46-55 [push_range]: the strings that are pushed.  (usize
    subtraction: [end] is not below [start], see [format_loop].) *)
Definition push_range (start end_ : N) : list (list byte) :=
  match end_ - start with
  | 0 => [print_num start]
  | 1 => [print_num start; print_num end_]
  | _ => [print_num start ++ 45 :: print_num end_]
  end.

(** bin/dump-metadata.rs:30-41, the loop of [format_list] and the last range. *)
Fixpoint format_loop (start prev : N) (l : list N) : list (list byte) :=
  match l with
  | [] => push_range start prev
  | v :: r => if v =? prev + 1 then format_loop start v r else push_range start prev ++ format_loop v v r
  end.

(** bin/dump-metadata.rs:21-44 [format_list]. *)
Definition format_list (l : list N) : list byte :=
  match l with [] => [] | v :: r => join_comma_space (format_loop v v r) end.

(** bin/dump-metadata.rs:137-154: the numbers of the stripes whose header has the
    flag, with [enumerate] and [filter_map]; [i] is the number of the first
    header of the list. *)
Fixpoint with_flag (flag : N) (i : N) (headers : list byte) : list N :=
  match headers with
  | [] => []
  | h :: r => if negb (N.land h flag =? 0) then i :: with_flag flag (i + 1) r else with_flag flag (i + 1) r
  end.

(** bin/dump-metadata.rs:164-166, the three lines, without their labels. *)
Definition dump_lines (headers : list byte) : list byte * list byte * list byte :=
  (format_list (with_flag FLAG_FETCHED 0 headers),
   format_list (with_flag FLAG_WRITTEN 0 headers),
   format_list (with_flag FLAG_HAS_SOURCE 0 headers)).

(** ** remote-stripe-shell *)

(** [u64::from_str] (and [usize::from_str], usize being 64 bits wide): an optional
    plus sign, then digits, the value in range. *)
Fixpoint digits (acc : N) (l : list byte) : option N :=
  match l with
  | [] => Some acc
  | b :: r => if (48 <=? b) && (b <=? 57) then digits (10 * acc + (b - 48)) r else None
  end.
Definition from_str (l : list byte) : option N :=
  let body := match l with 43 :: (_ :: _) as r => r | _ => l end in
  match body with
  | [] => None
  | _ => match digits 0 body with Some n => if n <? 2 ^ 64 then Some n else None | None => None end
  end.

(** bin/remote-stripe-shell.rs:190-204 [parse]: an error line, or the number. *)
Definition parse_arg (w : option (list byte)) : N + list byte :=
  match w with
  | None => inr (text "MISSING_ARGUMENT")
  | Some w => match from_str w with Some n => inl n | None => inr (text "INVALID_NUMBER: " ++ w) end
  end.

(** hex::encode: two lower case digits for each byte. *)
Definition hex_encode (d : list byte) : list byte := flat_map (fun b => [hex (b / 16); hex (b mod 16)]) d.

(** bin/remote-stripe-shell.rs:39-47: the state of the shell.  [sh_headers] and
    [sh_size] come from the metadata the server sent; [sh_cache] is
    [fetched_stripes]. *)
Record shell := mk_shell { sh_headers : list byte; sh_size : N; sh_cache : N -> option (list byte) }.

Definition cache (s : shell) (i : N) (d : list byte) : shell :=
  mk_shell (sh_headers s) (sh_size s) (fun j => if j =? i then Some d else sh_cache s j).

(** [offset.saturating_add(len)] on usize. *)
Definition sat_add (a b : N) : N := N.min (a + b) (2 ^ 64 - 1).

(** [data[a..b]] with its panics. *)
Definition slice_N (d : list byte) (a b : N) : res (list byte) :=
  if (a <=? b) && (b <=? N.of_nat (List.length d)) then Ok (firstn (N.to_nat (b - a)) (skipn (N.to_nat a) d)) else Panic.

(** bin/remote-stripe-shell.rs:114-158, the command dump_stripe. *)
Definition dump_stripe (s : shell) (i off len : N) : res (list byte) :=
  if N.of_nat (List.length (sh_headers s)) <=? i then Ok (text "INVALID_STRIPE")
  else
    let! header := index (sh_headers s) (N.to_nat i) in
    if N.land header FLAG_WRITTEN =? 0 then
      if sh_size s <? sat_add off len then Ok (text "INVALID_RANGE")
      else Ok (hex_encode (repeat 0 (N.to_nat len)))
    else
      match sh_cache s i with
      | Some d =>
        if N.of_nat (List.length d) <? sat_add off len then Ok (text "INVALID_RANGE")
        else let! piece := slice_N d off (off + len) in Ok (hex_encode piece)
      | None => Ok (text "NOT_FETCHED_FROM_REMOTE")
      end.

(** What a line does.  [words] are the words of the line, separated by white
    space; [fetch i] is what [client.fetch_stripe(i)] returns (RemoteModel.v), an
    error being printed as [fetch_error].  The result is the new state, the line
    printed (the help text and the second line after an unknown command are left
    out) and whether the shell goes on.
    bin/remote-stripe-shell.rs:64-163. *)
Definition fetch_error : list byte := text "error".
Definition shell_step (fetch : N -> res (list byte)) (s : shell) (words : list (list byte)) : res (shell * list byte * bool) :=
  match words with
  | [] => Ok (s, [], true)
  | cmd :: args =>
    if bytes_eqb cmd (text "exit") || bytes_eqb cmd (text "quit") then Ok (s, [], false)
    else if bytes_eqb cmd (text "help") then Ok (s, [], true)
    else if bytes_eqb cmd (text "stripe_header") then
      match parse_arg (nth_error args 0) with
      | inr e => Ok (s, e, true)
      | inl i =>
        if N.of_nat (List.length (sh_headers s)) <=? i then Ok (s, text "INVALID_STRIPE", true)
        else
          let! header := index (sh_headers s) (N.to_nat i) in
          let status := if negb (N.land header FLAG_WRITTEN =? 0) then text "WRITTEN" else text "NOT_WRITTEN" in
          Ok (s, text "0x" ++ hex_encode [header] ++ 32 :: status, true)
      end
    else if bytes_eqb cmd (text "fetch_stripe") then
      match parse_arg (nth_error args 0) with
      | inr e => Ok (s, e, true)
      | inl i =>
        if N.of_nat (List.length (sh_headers s)) <=? i then Ok (s, text "INVALID_STRIPE", true)
        else
          match fetch i with
          | Ok d => Ok (cache s i d, text "FETCHED", true)
          | Err _ => Ok (s, fetch_error, true)
          | Panic => Panic
          end
      end
    else if bytes_eqb cmd (text "dump_stripe") then
      match parse_arg (nth_error args 0), parse_arg (nth_error args 1), parse_arg (nth_error args 2) with
      | inl i, inl off, inl len => let! line := dump_stripe s i off len in Ok (s, line, true)
      | inr e, _, _ => Ok (s, e, true)
      | _, inr e, _ => Ok (s, e, true)
      | _, _, inr e => Ok (s, e, true)
      end
    else Ok (s, text "UNKNOWN_COMMAND: " ++ cmd, true)
  end.

(** A session: the lines typed, each with what the server does if it is asked.
    A line typed after the shell has ended prints nothing. *)
Fixpoint shell_run (s : shell) (lines : list (list (list byte) * (N -> res (list byte)))) : res (shell * list (list byte)) :=
  match lines with
  | [] => Ok (s, [])
  | (words, fetch) :: r =>
    let! x := shell_step fetch s words in
    let '(s', out, goes_on) := x in
    if goes_on then let! y := shell_run s' r in let (s'', outs) := y in Ok (s'', out :: outs)
    else Ok (s', [out])
  end.
