(** The encrypting device as a program over a base device it does not know: the model of
    CryptModel.v with the base device taken out (src/block_device/bdev_crypt.rs).

    In CryptModel.v the base device is an ordinary disk inside the state.  Here the base
    is outside: the channels call it (add_read, add_write, add_flush) and are told of
    completions (poll), and nothing else passes between them but the buffers. *)
From Coq Require Import List Arith NArith Bool.
Import ListNotations.
From Verif Require Import Base DiskSpec CryptModel.

(** A request in flight, as its caller knows it: the channel, the id, and the sectors and
    the buffer.  (The program has only the reads, in [read_requests].) *)
Inductive kwhat := KoRead (off len b : nat) | KoWrite (b : nat) | KoFlush.
Record kop := mk_kop { ko_ch : nat; ko_id : nat; ko_what : kwhat }.

Section Open.
Context {V : Type}.
Variable enc dec : nat -> V -> V.

(** All channels of one device (bdev_crypt.rs:13-17, 92-97) and the buffers, as in
    CryptModel.v. *)
Record kdev := mk_kdev {
  k_reads : nat -> nat -> option creq;
  k_mem : nat -> list (option V);
  k_ops : nat -> option kop;
  k_panic : bool
}.

Definition new_kdev : kdev := mk_kdev (fun _ _ => None) (fun _ => []) (fun _ => None) false.

Inductive kevent :=
| KFill (b : nat) (data : list V)                        (* the caller puts data in a buffer *)
| KRead (n q id off cnt b : nat)                         (* add_read *)
| KWrite (n q id off cnt b : nat)                        (* add_write *)
| KFlush (n q id : nat)                                  (* add_flush *)
| KDone (n : nat) (ok : bool) (data : list (option V))   (* the base reports request [n], having put [data] in its buffer *)
| KCrash.

(** bdev_crypt.rs:61-80 [poll], for one completion of the base, as [poll_one] in
    CryptModel.v. *)
Definition kpoll (q id : nat) (ok : bool) (s : kdev) : kdev :=
  match k_reads s q id with
  | None => s
  | Some r =>
    let reads := upd2 (k_reads s) q id None in
    if ok then
      match crypt_loop dec (r_off r) (r_cnt r) 0 (k_mem s (r_buf r)) with
      | Ok buf => mk_kdev reads (upd (k_mem s) (r_buf r) buf) (k_ops s) (k_panic s)
      | _ => mk_kdev reads (k_mem s) (k_ops s) true
      end
    else mk_kdev reads (k_mem s) (k_ops s) (k_panic s)
  end.

Definition set_op (n : nat) (o : option kop) (s : kdev) : kdev :=
  mk_kdev (k_reads s) (k_mem s) (upd (k_ops s) n o) (k_panic s).

(** What the base has put in the buffer of a successful read. *)
Definition received (w : kwhat) (ok : bool) (data : list (option V)) (s : kdev) : kdev :=
  match w with
  | KoRead _ _ b =>
    if ok then mk_kdev (k_reads s) (upd (k_mem s) b (put data (k_mem s b))) (k_ops s) (k_panic s) else s
  | _ => s
  end.

(** One step, with what the caller of the encrypting device sees and what passes between
    it and its base.  [None]: the event is not possible. *)
Definition kstep (s : kdev) (e : kevent) : option (kdev * list (titem V) * list (titem V)) :=
  match e with
  | KFill b data => Some (mk_kdev (k_reads s) (upd (k_mem s) b (map Some data)) (k_ops s) (k_panic s), [], [])
  | KRead n q id off cnt b =>   (* bdev_crypt.rs:30-41 *)
    Some (mk_kdev (upd2 (k_reads s) q id (Some (mk_creq off cnt b)))
            (upd (k_mem s) b (put (repeat None cnt) (k_mem s b)))
            (upd (k_ops s) n (Some (mk_kop q id (KoRead off cnt b)))) (k_panic s),
          [TIssue n q id (RRead off cnt)], [TIssue n q id (RRead off cnt)])
  | KWrite n q id off cnt b =>  (* bdev_crypt.rs:43-51 *)
    match defined (firstn cnt (k_mem s b)) with
    | None => None
    | Some plain =>
      match crypt_loop enc off cnt 0 (k_mem s b) with
      | Ok buf =>
        match defined (firstn cnt buf) with
        | None => None
        | Some cipher =>
          Some (mk_kdev (k_reads s) (upd (k_mem s) b buf)
                  (upd (k_ops s) n (Some (mk_kop q id (KoWrite b)))) (k_panic s),
                [TIssue n q id (RWrite off plain)], [TIssue n q id (RWrite off cipher)])
        end
      | _ => Some (mk_kdev (k_reads s) (k_mem s) (k_ops s) true, [], [])
      end
    end
  | KFlush n q id =>            (* bdev_crypt.rs:53-55 *)
    Some (set_op n (Some (mk_kop q id KoFlush)) s, [TIssue n q id RFlush], [TIssue n q id RFlush])
  | KDone n ok data =>          (* bdev_crypt.rs:61-80 *)
    match k_ops s n with
    | None => None
    | Some (mk_kop q id w) =>
      let s' := kpoll q id ok (received w ok data (set_op n None s)) in
      Some (s', [TDone n q id ok (match w with
                                  | KoRead _ len b => if ok then firstn len (k_mem s' b) else []
                                  | _ => []
                                  end)],
            [TDone n q id ok data])
    end
  | KCrash => Some (new_kdev, [TCrash], [TCrash])   (* the process restarts with empty channels *)
  end.

Fixpoint krun (s : kdev) (es : list kevent) : option (kdev * list (titem V) * list (titem V)) :=
  match es with
  | [] => Some (s, [], [])
  | e :: r =>
    match kstep s e with
    | None => None
    | Some (s1, t1, b1) =>
      match krun s1 r with
      | None => None
      | Some (s2, t2, b2) => Some (s2, t1 ++ t2, b1 ++ b2)
      end
    end
  end.

End Open.
Arguments kdev : clear implicits. Arguments kevent : clear implicits.
Arguments KFill {V}. Arguments KRead {V}. Arguments KWrite {V}. Arguments KFlush {V}. Arguments KDone {V}. Arguments KCrash {V}.
