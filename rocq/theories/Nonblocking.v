(** TNonblockingServer (lib/py/src/server/TNonblockingServer.py).  No proofs
    here. *)
From Coq Require Import ZArith List Bool.
From Coq Require Import Init.Byte.
From Verif Require Import Base Bytes Transport.
Import ListNotations.
Open Scope Z_scope.
Open Scope monad_scope.

(** Connection states, 66-70. *)
Inductive nstatus := WAIT_LEN | WAIT_MESSAGE | WAIT_PROCESS | SEND_ANSWER | CLOSED.

(** class Message, 95-104.  [self.buffer] is None until the frame is complete;
    here it is empty until then. *)
Record nmsg := mkmsg {
  g_offset : Z;
  g_len : Z;
  g_buffer : list byte;
  g_header : bool }.

Definition g_end (m : nmsg) : Z := g_offset m + g_len m.

(** class Connection, 107-131.  [n_open] is false once the socket has been
    closed.  The last four fields are not in the code: they record all bytes
    [recv] returned, the messages put on the task queue, the non-empty answers
    given to [ready], and the bytes the kernel took from [send].  [self.len]
    is never read and the lock is not modelled: [ready] runs as one step. *)
Record nconn := mkconn {
  n_status : nstatus;
  n_received : list nmsg;
  n_reading : nmsg;
  n_rbuf : list byte;
  n_wbuf : list byte;
  n_remaining : bool;
  n_open : bool;
  n_got : list byte;
  n_handed : list nmsg;
  n_answers : list (list byte);
  n_sent : list byte }.

Definition HEAD : nmsg := mkmsg 0 4 [] true.

(** __init__, 119-131 *)
Definition new_conn : nconn :=
  mkconn WAIT_LEN [] HEAD [] [] false true [] [] [] [].

Definition set_status (st : nstatus) (c : nconn) : nconn :=
  mkconn st (n_received c) (n_reading c) (n_rbuf c) (n_wbuf c) (n_remaining c)
    (n_open c) (n_got c) (n_handed c) (n_answers c) (n_sent c).
Definition set_reading (st : nstatus) (m : nmsg) (c : nconn) : nconn :=
  mkconn st (n_received c) m (n_rbuf c) (n_wbuf c) (n_remaining c)
    (n_open c) (n_got c) (n_handed c) (n_answers c) (n_sent c).
Definition set_remaining (b : bool) (c : nconn) : nconn :=
  mkconn (n_status c) (n_received c) (n_reading c) (n_rbuf c) (n_wbuf c) b
    (n_open c) (n_got c) (n_handed c) (n_answers c) (n_sent c).
Definition set_out (st : nstatus) (w : list byte) (c : nconn) : nconn :=
  mkconn st (n_received c) (n_reading c) (n_rbuf c) w (n_remaining c)
    (n_open c) (n_got c) (n_handed c) (n_answers c) (n_sent c).

(** close, 231-234 *)
Definition n_close (c : nconn) : nconn :=
  mkconn CLOSED (n_received c) (n_reading c) (n_rbuf c) (n_wbuf c) (n_remaining c)
    false (n_got c) (n_handed c) (n_answers c) (n_sent c).

(** [self._rbuf += read] *)
Definition n_add (b : list byte) (c : nconn) : nconn :=
  mkconn (n_status c) (n_received c) (n_reading c) (n_rbuf c ++ b) (n_wbuf c)
    (n_remaining c) (n_open c) (n_got c ++ b) (n_handed c) (n_answers c) (n_sent c).

(** Lines 160-163: a complete frame is queued, with the whole buffer. *)
Definition n_complete (c : nconn) : nconn :=
  let m := n_reading c in
  mkconn (n_status c)
    (n_received c ++ [mkmsg (g_offset m) (g_len m) (n_rbuf c) false]) HEAD
    (skipn (Z.to_nat (g_end m)) (n_rbuf c)) (n_wbuf c)
    (n_remaining c) (n_open c) (n_got c) (n_handed c) (n_answers c) (n_sent c).

(** The inner loop of read, 150-163. *)
Fixpoint frames (fuel : nat) (c : nconn) : outcome unit * nconn :=
  if Z.of_nat (length (n_rbuf c)) <? g_end (n_reading c) then (Ok tt, c)
  else
    match fuel with
    | O => (Diverge, c)
    | S f =>
        if g_header (n_reading c) then
          let mlen := unpack_signed 4 (firstn 4 (n_rbuf c)) in
          if mlen <? 0 then (Ok tt, n_close c)
          else frames f (set_reading WAIT_MESSAGE
                           (mkmsg (g_end (n_reading c)) mlen [] false) c)
        else frames f (n_complete c)
    end.

(** What [recv] gives: data (empty at end of stream), or socket.error, which
    includes BlockingIOError when nothing is available. *)
Inductive rres := RData (b : list byte) | RError.

(** [buf_size], 137 *)
Definition BUF_SIZE := 8192.

(** The loop of read, 140-169, with the results of the [recv] calls as long as
    the kernel has something to say; after that nothing is available.  A
    socket.error closes the connection (85-93) and leaves [remaining] alone. *)
Fixpoint recv_loop (first : bool) (rs : list rres) (c : nconn)
  : outcome unit * nconn :=
  match n_open c, rs with
  | false, _ | _, [] | _, RError :: _ => (Ok tt, n_close c)
  | true, RData b :: rs' =>
      let rlen := Z.of_nat (length b) in
      let done := rlen <? BUF_SIZE in
      let c1 := n_add b c in
      let c2 := if first && (rlen =? 0) then n_close c1 else c1 in
      match frames (2 * length (n_rbuf c2) + 2) c2 with
      | (Ok _, c3) =>
          match n_received c3 with
          | _ :: _ => (Ok tt, set_remaining (negb done) (set_status WAIT_PROCESS c3))
          | [] => if done then (Ok tt, set_remaining false c3)
                  else recv_loop false rs' c3
          end
      | r => r
      end
  end.

(** read, 132-169 *)
Definition n_read (rs : list rres) (c : nconn) : outcome unit * nconn :=
  match n_status c, n_received c with
  | (WAIT_LEN | WAIT_MESSAGE), [] => recv_loop true rs c
  | _, _ => (Raise EAssertion, c)
  end.

(** write, 171-181 *)
Definition n_write (r : send_result) (c : nconn) : outcome unit * nconn :=
  match n_status c with
  | SEND_ANSWER =>
      match n_open c, r with
      | true, Sent k =>
          let n := Nat.min k (length (n_wbuf c)) in
          let c' := mkconn SEND_ANSWER (n_received c) (n_reading c) (n_rbuf c)
                      (n_wbuf c) (n_remaining c) (n_open c) (n_got c) (n_handed c)
                      (n_answers c) (n_sent c ++ firstn n (n_wbuf c)) in
          (Ok tt, if Nat.eqb n (length (n_wbuf c)) then set_out WAIT_LEN [] c'
                  else set_out SEND_ANSWER (skipn n (n_wbuf c)) c')
      | _, _ => (Ok tt, n_close c)
      end
  | _ => (Raise EAssertion, c)
  end.

(** ready, 183-209, together with its callers in Worker.run, 52-63: [None] is an
    exception in the processor.  An answer whose length does not fit makes
    struct.pack raise, which ends in the same place as [None]. *)
Definition n_ready (answer : option (list byte)) (c : nconn) : outcome unit * nconn :=
  match n_status c with
  | WAIT_PROCESS =>
      match answer with
      | None => (Ok tt, n_close c)
      | Some [] => (Ok tt, set_out WAIT_LEN [] c)
      | Some m =>
          if Z.of_nat (length m) <=? 2147483647 then
            (Ok tt, mkconn SEND_ANSWER (n_received c) (n_reading c) (n_rbuf c)
               (be_bytes 4 (Z.of_nat (length m)) ++ m) (n_remaining c) (n_open c)
               (n_got c) (n_handed c) (n_answers c ++ [m]) (n_sent c))
          else (Ok tt, n_close c)
      end
  | _ => (Raise EAssertion, c)
  end.

Definition n_readable (c : nconn) : bool :=
  match n_status c with WAIT_LEN | WAIT_MESSAGE => true | _ => false end.
Definition n_writeable (c : nconn) : bool :=
  match n_status c with SEND_ANSWER => true | _ => false end.
Definition n_closed (c : nconn) : bool :=
  match n_status c with CLOSED => true | _ => false end.

(** * The server *)

(** [self.clients], keyed by file descriptor, and the descriptors registered
    with [self.poll].  The listening socket and the wake-up socket are always
    registered and are not listed. *)
Record nserver := mksrv {
  clients : list (Z * nconn);
  polled : list Z }.

Definition find_client (fd : Z) (l : list (Z * nconn)) : option nconn :=
  option_map snd (find (fun p => fst p =? fd) l).

Fixpoint put_client (fd : Z) (c : nconn) (l : list (Z * nconn)) : list (Z * nconn) :=
  match l with
  | [] => [(fd, c)]
  | (k, x) :: r => if k =? fd then (fd, c) :: r else (k, x) :: put_client fd c r
  end.

Definition del_client (fd : Z) (l : list (Z * nconn)) : list (Z * nconn) :=
  filter (fun p => negb (fst p =? fd)) l.

(** [connection.fileno()], 227-229: -1 once closed. *)
Definition n_fileno (fd : Z) (c : nconn) : Z := if n_open c then fd else -1.

(** [self.clients[fd]], running a method on the object found. *)
Definition on_client {A} (fd : Z) (f : nconn -> outcome A * nconn) : SM nserver A :=
  fun s =>
    match find_client fd (clients s) with
    | None => (Raise EKeyError, s)
    | Some c => match f c with
                | (r, c') => (r, mksrv (put_client fd c' (clients s)) (polled s))
                end
    end.

(** [self.poll.register] and [unregister]; a negative descriptor is a
    ValueError. *)
Definition register (fd : Z) : SM nserver unit :=
  fun s => if fd <? 0 then (Raise EValueError, s)
           else (Ok tt, mksrv (clients s)
                   (fd :: filter (fun x => negb (x =? fd)) (polled s))).
Definition unregister (fd : Z) : SM nserver unit :=
  fun s => if fd <? 0 then (Raise EValueError, s)
           else if existsb (Z.eqb fd) (polled s)
           then (Ok tt, mksrv (clients s) (filter (fun x => negb (x =? fd)) (polled s)))
           else (Raise EKeyError, s).

(** [del self.clients[i]], with [self.poll.unregister(i)] when there is a poll
    object; its KeyError is caught (341-345). *)
Definition forget (poll : bool) (fd : Z) : SM nserver unit :=
  fun s => (Ok tt, mksrv (del_client fd (clients s))
                     (if poll then filter (fun x => negb (x =? fd)) (polled s)
                      else polled s)).

(** The loops over the clients in _poll_select (331-346) and _select (308-316).
    Result: the descriptors of clients with work left over, and whether the
    lists given to [select] have a negative descriptor. *)
Fixpoint scan (poll : bool) (l : list (Z * nconn)) : SM nserver (list Z * bool) :=
  match l with
  | [] => ret ([], false)
  | (fd, c) :: r =>
      let f := n_fileno fd c in
      let active := n_readable c || n_writeable c in
      (if active && poll then register f else ret tt) ;;;
      (if n_closed c then forget poll fd else ret tt) ;;;
      '(rem, bad) <- scan poll r ;;
      ret ((if n_readable c
               && (n_remaining c || match n_received c with [] => false | _ => true end)
            then [f] else []) ++ rem,
           active && (f <? 0) || bad)
  end.

(** What the kernel reports: entries of the three lists made from the result of
    [poll] or [select] (351-360).  A readable entry is the listening socket
    (with the descriptor of the accepted connection, or None if accept failed),
    the wake-up socket, or a client. *)
Inductive rfd := RListen (accepted : option Z) | RWake | RClient (fd : Z).

Record kernel := mkkernel {
  k_read : list rfd;
  k_write : list Z;
  k_err : list Z;
  k_recv : Z -> list rres;          (* results of recv, per client *)
  k_send : Z -> send_result }.      (* result of send, per client *)

(** 379-393: read if selected, then hand one queued message to the workers. *)
Definition serve_client (poll selected : bool) (k : kernel) (fd : Z)
  : SM nserver unit :=
  (if selected then on_client fd (n_read (k_recv k fd)) else on_client fd (fun c => (Ok tt, c))) ;;;
  fun s =>
    match find_client fd (clients s) with
    | Some c =>
        match n_received c with
        | [] => (Ok tt, s)
        | m :: r =>
            (on_client fd (fun c => (Ok tt, set_status WAIT_PROCESS c)) ;;;
             (if poll then unregister (n_fileno fd c) else ret tt) ;;;
             on_client fd (fun c =>
               (Ok tt, mkconn (n_status c) r (n_reading c) (n_rbuf c) (n_wbuf c)
                         (n_remaining c) (n_open c) (n_got c) (n_handed c ++ [m])
                         (n_answers c) (n_sent c)))) s
        end
    | None => (Raise EKeyError, s)
    end.

(** 368-393 *)
Definition serve_readable (poll selected : bool) (k : kernel) (r : rfd)
  : SM nserver unit :=
  match r with
  | RWake | RListen None => ret tt
  | RListen (Some fd) =>
      fun s => (Ok tt, mksrv (put_client fd new_conn (clients s)) (polled s))
  | RClient fd => serve_client poll selected k fd
  end.

(** handle, 362-398 *)
Definition handle (poll : bool) (k : kernel) : SM nserver unit :=
  '(rem, bad) <- (fun s => scan poll (clients s) s) ;;
  match rem with
  | _ :: _ => mapM_ (serve_readable poll false k) (map RClient rem)
  | [] =>
      if negb poll && bad then raise EValueError
      else
        mapM_ (serve_readable poll true k) (k_read k) ;;;
        mapM_ (fun fd => on_client fd (n_write (k_send k fd))) (k_write k) ;;;
        mapM_ (fun fd => on_client fd (fun c => (Ok tt, n_close c))) (k_err k)
  end.

(** What happens to a server: the main thread runs [handle] once, or a worker
    finishes the request of a client (an AssertionError in [ready] ends that
    worker's thread and leaves the server as it is). *)
Inductive nevent :=
| Handle (k : kernel)
| Done (fd : Z) (answer : option (list byte)).

Definition nstep (poll : bool) (e : nevent) : SM nserver unit :=
  match e with
  | Handle k => handle poll k
  | Done fd answer =>
      fun s => match find_client fd (clients s) with
               | Some c => (Ok tt, mksrv (put_client fd (snd (n_ready answer c)) (clients s))
                                     (polled s))
               | None => (Ok tt, s)
               end
  end.

(** serve, 408-416: an exception in [handle] ends it. *)
Fixpoint nrun (poll : bool) (l : list nevent) : SM nserver unit :=
  match l with
  | [] => ret tt
  | e :: r => nstep poll e ;;; nrun poll r
  end.

(** The bytes of the frame, and what the worker's protocol reads: a memory
    buffer over the message's whole buffer, from the offset on (387). *)
Definition payload (m : nmsg) : list byte :=
  firstn (Z.to_nat (g_len m)) (skipn (Z.to_nat (g_offset m)) (g_buffer m)).
Definition worker_input (m : nmsg) : list byte :=
  skipn (Z.to_nat (g_offset m)) (g_buffer m).
