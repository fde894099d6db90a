(** Model of the pre-shared key connections of the stripe server and of the server
    process: src/stripe_server/psk.rs, src/bin/remote-stripe-server.rs.

    TLS itself is not modelled: with the one cipher suite in use,
    PSK-AES256-GCM-SHA384 without certificates (psk.rs:11, 137-155), a handshake
    completes exactly if the keys that the two callbacks supply are equal
    ([agree]). *)
From Coq Require Import List Arith NArith Bool.
Import ListNotations.
From Verif Require Import Base RemoteModel.

(** ** Credentials *)

(** psk.rs:13-17. *)
Record creds := mk_creds { cr_identity : list byte; cr_secret : list byte }.

(** psk.rs:28-51 [PskCredentials::new]. *)
Definition psk_new (identity secret : list byte) : res creds :=
  match identity with
  | [] => Err 1
  | _ => if length secret <? 16 then Err 2 else Ok (mk_creds identity secret)
  end.

(** psk.rs:57-80 [parse_psk_credentials]; [decode]: base64, [unwrap]: the
    decryption with the key encryption key (modelled in KeyModel.v). *)
Definition parse_psk_credentials (decode : list byte -> option (list byte)) (unwrap : list byte -> res (list byte))
    (identity secret_b64 : option (list byte)) : res (option creds) :=
  match identity, secret_b64 with
  | Some i, Some s =>
    match decode s with
    | None => Err 3
    | Some e => let! d := unwrap e in let! c := psk_new i d in Ok (Some c)
    end
  | None, None => Ok None
  | _, _ => Err 4
  end.

(** ** The callbacks *)

(** OpenSSL passes identities as C strings: it sends what is before the first zero
    byte, and cuts a received identity at its first zero byte. *)
Fixpoint c_string (l : list byte) : list byte :=
  match l with b :: r => if (b =? 0)%N then [] else b :: c_string r | [] => [] end.

(** psk.rs:87-102, the callback of [wrap_psk_client_stream]: the identity that is
    sent and the key; [None]: it refuses.  [idbuf] and [pskbuf] are the sizes of the
    buffers that OpenSSL provides. *)
Definition client_callback (idbuf pskbuf : nat) (c : creds) : option (list byte * list byte) :=
  if idbuf <=? length (cr_identity c) then None
  else if pskbuf <? length (cr_secret c) then None
  else Some (c_string (cr_identity c ++ [0%N]), cr_secret c).

(** openssl::memcmp::eq, documented to panic on slices of different lengths. *)
Definition memcmp_eq (a b : list byte) : res bool :=
  if length a =? length b then Ok (bytes_eqb a b) else Panic.

(** psk.rs:115-126, the callback of [wrap_psk_server_stream]: the key for the
    received identity, [None] if it refuses. *)
Definition server_callback (pskbuf : nat) (c : creds) (received : option (list byte)) : res (option (list byte)) :=
  let! same := memcmp_eq (match received with Some i => i | None => [] end) (cr_identity c) in
  if negb same then Ok None
  else if pskbuf <? length (cr_secret c) then Ok None
  else Ok (Some (cr_secret c)).

Definition agree (k1 k2 : list byte) : bool := bytes_eqb k1 k2.

(** What a peer does in a handshake: the bytes it sends as its identity and the key
    it uses.  The peer need not be this program's client. *)
Record peer := mk_peer { pe_identity : list byte; pe_key : list byte }.

(** psk.rs:111-135 [wrap_psk_server_stream]. *)
Definition wrap_psk_server_stream (pskbuf : nat) (c : creds) (p : peer) : res unit :=
  let! k := server_callback pskbuf c (Some (c_string (pe_identity p))) in
  match k with
  | None => Err 5
  | Some k => if agree k (pe_key p) then Ok tt else Err 6
  end.

(** psk.rs:82-109 [wrap_psk_client_stream] with a server that answers the identity
    with the key [key_for identity], if with any. *)
Definition wrap_psk_client_stream (idbuf pskbuf : nat) (c : creds) (key_for : list byte -> option (list byte)) : res unit :=
  match client_callback idbuf pskbuf c with
  | None => Err 7
  | Some (i, k) =>
    match key_for i with
    | None => Err 8
    | Some k' => if agree k k' then Ok tt else Err 9
    end
  end.

(** ** The server process *)

(** A connection: waiting for the handshake with what the peer does and the bytes
    that arrive afterwards; in a session with the bytes that are left; closed. *)
Inductive phase := PHandshake (p : peer) (input : list byte) | PSession (input : list byte) | PClosed.
Record conn := mk_conn { cn_phase : phase; cn_sent : list byte }.

(** The process: whether it runs, and its connections in the order of their
    acceptance. *)
Record server := mk_server { sv_up : bool; sv_conns : list conn }.
Definition server_start : server := mk_server true [].

Inductive snet :=
| NConnect (p : peer) (input : list byte)   (* accept gives a connection *)
| NAcceptError                              (* accept gives an error *)
| NHandshake (i : nat)                      (* connection i's thread does the handshake *)
| NRequest (i : nat) (o : io).              (* ... serves one request, with that I/O *)

Section Server.
Variable pskbuf : nat.
Variable psk : option creds.
Variable ss : session.

(** remote-stripe-server.rs:100-119, the thread of a connection: handshake if there
    are credentials.  A panic in the callback happens inside OpenSSL, called through
    an extern "C" function, so it ends the process, not the thread. *)
Definition handshake (p : peer) (input : list byte) : res phase :=
  match psk with
  | None => Ok (PSession input)
  | Some c =>
    match wrap_psk_server_stream pskbuf c p with
    | Ok _ => Ok (PSession input)
    | Err _ => Ok PClosed
    | Panic => Panic
    end
  end.

(** One step; events that cannot happen change nothing.  remote-stripe-server.rs:
    97-124: an error of accept ends the process; a panic while a request is served
    ends the thread. *)
Definition server_step (s : server) (e : snet) : server :=
  if negb (sv_up s) then s
  else
    match e with
    | NConnect p input => mk_server true (sv_conns s ++ [mk_conn (PHandshake p input) []])
    | NAcceptError => mk_server false (sv_conns s)
    | NHandshake i =>
      match nth_error (sv_conns s) i with
      | Some (mk_conn (PHandshake p input) sent) =>
        match handshake p input with
        | Ok ph => mk_server true (set_nth i (mk_conn ph sent) (sv_conns s))
        | _ => mk_server false (sv_conns s)
        end
      | _ => s
      end
    | NRequest i o =>
      match nth_error (sv_conns s) i with
      | Some (mk_conn (PSession input) sent) =>
        match handle_single_request ss o input with
        | Ok (out, Some rest) => mk_server true (set_nth i (mk_conn (PSession rest) (sent ++ out)) (sv_conns s))
        | Ok (out, None) => mk_server true (set_nth i (mk_conn PClosed (sent ++ out)) (sv_conns s))
        | _ => mk_server true (set_nth i (mk_conn PClosed sent) (sv_conns s))
        end
      | _ => s
      end
    end.

Fixpoint server_run (s : server) (es : list snet) : server :=
  match es with [] => s | e :: r => server_run (server_step s e) r end.

End Server.
