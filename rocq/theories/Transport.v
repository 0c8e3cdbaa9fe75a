(** Transports: TTransportBase.readAll, TBufferedTransport, TMemoryBuffer,
    TFramedTransport, TSaslClientTransport (lib/py/src/transport/TTransport.py)
    and TSocket (lib/py/src/transport/TSocket.py).  No proofs here. *)
From Coq Require Import ZArith List Bool.
From Coq Require Import Init.Byte.
From Verif Require Import Base Bytes.
Import ListNotations.
Open Scope Z_scope.

(** * readAll over any [read]

    TTransportBase.readAll, TTransport.py 59-71.  [read] is the method of the
    transport object, whose state is [T].  Each iteration but the last gets at
    least one byte, so [sz] iterations are enough. *)
Fixpoint readAll_loop {T} (fuel : nat) (read : Z -> SM T (list byte)) (sz have : Z)
    (buff : list byte) : SM T (list byte) :=
  match fuel with
  | O => diverge
  | S k =>
      if have <? sz then
        chunk <- read (sz - have) ;;
        let chunkLen := Z.of_nat (length chunk) in
        if chunkLen =? 0 then raise EEOFError
        else readAll_loop k read sz (have + chunkLen) (buff ++ chunk)
      else ret buff
  end.

Definition readAll_t {T} (read : Z -> SM T (list byte)) (sz : Z) : SM T (list byte) :=
  readAll_loop (S (Z.to_nat sz)) read sz 0 [].

(** [BytesIO.read]: what is returned and what is left.  A negative size means
    everything. *)
Definition bytesio_read (sz : Z) (l : list byte) : list byte * list byte :=
  if sz <? 0 then (l, []) else (firstn (Z.to_nat sz) l, skipn (Z.to_nat sz) l).

(** TMemoryBuffer.read, TTransport.py 232-233, on the [inp] part of a protocol
    state. *)
Definition mem_read {X} (sz : Z) : M X (list byte) :=
  fun s => let (a, b) := bytesio_read sz (inp s) in
           (Ok a, mkst (px s) b (out s) (depth s)).

(** * A wrapped transport *)

(** The methods of the transport underneath.  [isOpen], [open] and [close] are
    delegated unchanged by every wrapper and left out. *)
Record transport (T : Type) := mktransport {
  t_read : Z -> SM T (list byte);
  t_write : list byte -> SM T unit;
  t_flush : SM T unit }.
Arguments t_read {T} t.
Arguments t_write {T} t.
Arguments t_flush {T} t.

(** Attributes of a wrapper: the transport underneath, the unread part of
    [__rbuf] and the contents of [__wbuf]. *)
Record wrap (T : Type) := mkwrap {
  w_trans : T;
  w_rbuf : list byte;
  w_wbuf : list byte }.
Arguments mkwrap {T} w_trans w_rbuf w_wbuf.
Arguments w_trans {T} w.
Arguments w_rbuf {T} w.
Arguments w_wbuf {T} w.

Definition on_trans {T A} (m : SM T A) : SM (wrap T) A :=
  fun s => match m (w_trans s) with
           | (r, t) => (r, mkwrap t (w_rbuf s) (w_wbuf s))
           end.
Definition set_rbuf {T} (b : list byte) : SM (wrap T) unit :=
  fun s => (Ok tt, mkwrap (w_trans s) b (w_wbuf s)).
Definition set_wbuf {T} (b : list byte) : SM (wrap T) unit :=
  fun s => (Ok tt, mkwrap (w_trans s) (w_rbuf s) b).
(** [self.__rbuf.read(sz)] *)
Definition rbuf_read {T} (sz : Z) : SM (wrap T) (list byte) :=
  fun s => let (a, b) := bytesio_read sz (w_rbuf s) in
           (Ok a, mkwrap (w_trans s) b (w_wbuf s)).
(** [self.__wbuf.getvalue()] *)
Definition wbuf_getvalue {T} : SM (wrap T) (list byte) := fun s => (Ok (w_wbuf s), s).
(** [self.__wbuf.write(buf)]: TBufferedTransport.write 168-174 (the except
    branch is for objects that are not bytes), TFramedTransport.write 292-293,
    TSaslClientTransport.write 427-428. *)
Definition w_write {T} (buf : list byte) : SM (wrap T) unit :=
  fun s => (Ok tt, mkwrap (w_trans s) (w_rbuf s) (w_wbuf s ++ buf)).

Section Wrappers.
Context {T : Type}.
Variable U : transport T.

(** ** TBufferedTransport *)

(** read, 161-166.  [rbuf_size] is the constructor argument. *)
Definition buffered_read (rbuf_size sz : Z) : SM (wrap T) (list byte) :=
  ret1 <- rbuf_read sz ;;
  if negb (Z.of_nat (length ret1) =? 0) then ret ret1
  else
    chunk <- on_trans (t_read U (Z.max sz rbuf_size)) ;;
    set_rbuf chunk ;;;
    rbuf_read sz.

(** flush, 176-181 *)
Definition buffered_flush : SM (wrap T) unit :=
  out <- wbuf_getvalue ;;
  set_wbuf [] ;;;
  on_trans (t_write U out) ;;;
  on_trans (t_flush U).

(** cstringio_refill, 188-199; returns the new [__rbuf]. *)
Definition buffered_refill (rbuf_size : Z) (partialread : list byte) (reqlen : Z)
  : SM (wrap T) (list byte) :=
  r1 <- (if reqlen <? rbuf_size
         then c <- on_trans (t_read U rbuf_size) ;; ret (partialread ++ c)
         else ret partialread) ;;
  r2 <- (if Z.of_nat (length r1) <? reqlen
         then c <- on_trans (readAll_t (t_read U) (reqlen - Z.of_nat (length r1))) ;;
              ret (r1 ++ c)
         else ret r1) ;;
  set_rbuf r2 ;;;
  ret r2.

(** ** TFramedTransport *)

(** readFrame, 287-290 *)
Definition readFrame : SM (wrap T) unit :=
  buff <- on_trans (readAll_t (t_read U) 4) ;;
  let sz := unpack_signed 4 buff in
  body <- on_trans (readAll_t (t_read U) sz) ;;
  set_rbuf body.

(** read, 279-285 *)
Definition framed_read (sz : Z) : SM (wrap T) (list byte) :=
  ret1 <- rbuf_read sz ;;
  if negb (Z.of_nat (length ret1) =? 0) then ret ret1
  else
    readFrame ;;;
    rbuf_read sz.

(** flush, 295-306 *)
Definition framed_flush : SM (wrap T) unit :=
  wout <- wbuf_getvalue ;;
  set_wbuf [] ;;;
  hdr <- pack_signed 4 (Z.of_nat (length wout)) ;;
  on_trans (t_write U (hdr ++ wout)) ;;;
  on_trans (t_flush U).

(** cstringio_refill, 313-321.  [self.__rbuf.getvalue()] is the whole frame
    just read.  Fuel: one unit per frame. *)
Fixpoint framed_refill_loop (fuel : nat) (prefix : list byte) (reqlen : Z)
  : SM (wrap T) (list byte) :=
  match fuel with
  | O => diverge
  | S k =>
      if Z.of_nat (length prefix) <? reqlen then
        readFrame ;;;
        frame <- (fun s => (Ok (w_rbuf s), s)) ;;
        framed_refill_loop k (prefix ++ frame) reqlen
      else ret prefix
  end.
Definition framed_refill (fuel : nat) (prefix : list byte) (reqlen : Z)
  : SM (wrap T) (list byte) :=
  r <- framed_refill_loop fuel prefix reqlen ;;
  set_rbuf r ;;;
  ret r.

(** ** TSaslClientTransport after negotiation

    [sasl_wrap] and [sasl_unwrap] are [self.sasl.wrap] and [unwrap]
    (puresasl), oracles that may raise. *)
Variables sasl_wrap sasl_unwrap : list byte -> outcome (list byte).

Definition lift {S A} (r : outcome A) : SM S A := fun s => (r, s).

(** flush, 430-435: the write buffer is replaced last. *)
Definition sasl_flush : SM (wrap T) unit :=
  data <- wbuf_getvalue ;;
  encoded <- lift (sasl_wrap data) ;;
  hdr <- pack_signed 4 (Z.of_nat (length encoded)) ;;
  on_trans (t_write U (hdr ++ encoded)) ;;;
  on_trans (t_flush U) ;;;
  set_wbuf [].

(** _read_frame, 445-449 *)
Definition sasl_read_frame : SM (wrap T) unit :=
  header <- on_trans (readAll_t (t_read U) 4) ;;
  let length := unpack_signed 4 header in
  encoded <- on_trans (readAll_t (t_read U) length) ;;
  dec <- lift (sasl_unwrap encoded) ;;
  set_rbuf dec.

(** read, 437-443 *)
Definition sasl_read (sz : Z) : SM (wrap T) (list byte) :=
  ret1 <- rbuf_read sz ;;
  if negb (Z.of_nat (length ret1) =? 0) then ret ret1
  else
    sasl_read_frame ;;;
    rbuf_read sz.

(** send_sasl_msg, 411-416: [pack(">BI", status, len(body))]. *)
Definition send_sasl_msg (status : Z) (body : list byte) : SM T unit :=
  h1 <- pack_unsigned 1 status ;;
  h2 <- pack_unsigned 4 (Z.of_nat (length body)) ;;
  t_write U ((h1 ++ h2) ++ body) ;;;
  t_flush U.

(** recv_sasl_msg, 418-425 *)
Definition recv_sasl_msg : SM T (Z * list byte) :=
  header <- readAll_t (t_read U) 5 ;;
  let status := unpack_unsigned (firstn 1 header) in
  let length := unpack_unsigned (skipn 1 header) in
  payload <- (if length >? 0 then readAll_t (t_read U) length else ret []) ;;
  ret (status, payload).

End Wrappers.

(** A wrapper as a transport, to be wrapped again. *)
Definition buffered {T} (U : transport T) (rbuf_size : Z) : transport (wrap T) :=
  mktransport _ (buffered_read U rbuf_size) w_write (buffered_flush U).
Definition framed {T} (U : transport T) : transport (wrap T) :=
  mktransport _ (framed_read U) w_write (framed_flush U).

(** * A stream of bytes arriving in pieces

    The bytes still to come, how many the next reads deliver at most (a read
    never delivers nothing while there is something; after the schedule is
    used up reads deliver all they can), and whether the end of the stream is
    reported by raising (TSocket.read, TSocket.py 159-180) or by an empty
    result (files, TMemoryBuffer). *)
Record source := mksource {
  src_data : list byte;
  src_plan : list nat;
  src_raises : bool }.

Definition source_read (sz : Z) : SM source (list byte) :=
  fun s =>
    match src_data s with
    | [] => if src_raises s then (Raise (ETransport TT_END_OF_FILE), s) else (Ok [], s)
    | d =>
        let k := match src_plan s with
                 | [] => length d
                 | p :: _ => Nat.max 1 p
                 end in
        let n := Nat.min (Z.to_nat sz) k in
        (Ok (firstn n d), mksource (skipn n d) (tl (src_plan s)) (src_raises s))
    end.

(** * TSocket.write

    What the kernel does with each [send]: take a number of bytes (at most
    what it is given), or fail. *)
Inductive send_result := Sent (k : nat) | SendError.

Record sock := mksock {
  s_open : bool;                 (* self.handle is not None *)
  s_taken : list byte;           (* bytes the kernel has taken *)
  s_plan : list send_result }.

(** [self.handle.send(buff)]; an exhausted plan takes everything. *)
Definition sock_send (buff : list byte) : SM sock nat :=
  fun s =>
    match s_plan s with
    | [] => (Ok (length buff), mksock (s_open s) (s_taken s ++ buff) [])
    | Sent k :: r =>
        let n := Nat.min k (length buff) in
        (Ok n, mksock (s_open s) (s_taken s ++ firstn n buff) r)
    | SendError :: r => (Raise EOSError, mksock (s_open s) (s_taken s) r)
    end.

(** The loop of write, TSocket.py 188-197.  [except socket.error] turns OSError
    into TTransportException UNKNOWN. *)
Fixpoint sock_write_loop (fuel : nat) (sent have : nat) (buff : list byte)
  : SM sock unit :=
  match fuel with
  | O => diverge
  | S f =>
      if (sent <? have)%nat then
        fun s => match sock_send buff s with
                 | (Ok plus, s') =>
                     if (plus =? 0)%nat then (Raise (ETransport TT_END_OF_FILE), s')
                     else sock_write_loop f (sent + plus) have (skipn plus buff) s'
                 | (Raise EOSError, s') => (Raise (ETransport TT_UNKNOWN), s')
                 | (Raise e, s') => (Raise e, s')
                 | (Diverge, s') => (Diverge, s')
                 end
      else ret tt
  end.

(** write, TSocket.py 182-197 *)
Definition sock_write (buff : list byte) : SM sock unit :=
  fun s => if s_open s
           then sock_write_loop (S (length buff)) 0 (length buff) buff s
           else (Raise (ETransport TT_NOT_OPEN), s).

(** * TSocket.open

    What happens with one address: [socket.socket] fails, an option call on
    the new socket fails, [connect] fails with socket.error, or it works. *)
Inductive addr_outcome := CreateFails | OptionFails | ConnectFails | Connects.

Record opener := mkopener {
  o_handle : option nat;      (* self.handle: which socket *)
  o_live : list nat;          (* sockets created and not closed *)
  o_next : nat }.

(** The loop of open, TSocket.py 138-157.  A socket is named by the number of
    sockets created before it.  Only [connect] is inside the try. *)
Fixpoint open_loop (addrs : list addr_outcome) : SM opener unit :=
  match addrs with
  | [] => raise (ETransport TT_NOT_OPEN)
  | a :: rest =>
      fun s =>
        match a with
        | CreateFails => (Raise EOSError, s)
        | OptionFails =>
            (Raise EOSError, mkopener (o_handle s) (o_next s :: o_live s) (S (o_next s)))
        | ConnectFails =>
            (* handle.close() in the except branch *)
            open_loop rest (mkopener (o_handle s) (o_live s) (S (o_next s)))
        | Connects =>
            (Ok tt, mkopener (Some (o_next s)) (o_next s :: o_live s) (S (o_next s)))
        end
  end.

(** ALREADY_OPEN, TTransport.py 31 *)
Definition TT_ALREADY_OPEN := 2.

(** open, TSocket.py 127-157; [addrs = None]: name resolution failed. *)
Definition sock_open (addrs : option (list addr_outcome)) : SM opener unit :=
  fun s =>
    match o_handle s with
    | Some _ => (Raise (ETransport TT_ALREADY_OPEN), s)
    | None =>
        match addrs with
        | None => (Raise (ETransport TT_NOT_OPEN), s)
        | Some l => open_loop l s
        end
    end.

(** close, TSocket.py 45-48 *)
Definition sock_close : SM opener unit :=
  fun s =>
    match o_handle s with
    | None => (Ok tt, s)
    | Some h =>
        (Ok tt, mkopener None (filter (fun k => negb (k =? h)%nat) (o_live s)) (o_next s))
    end.

(** What peeking at the connection finds, TSocket.py 90-102: a byte, end of
    stream, an error meaning "nothing yet", another socket error, or the
    ValueError of SSL sockets. *)
Inductive peek := PeekByte | PeekEof | PeekWouldBlock | PeekError | PeekSsl.

(** isOpen, TSocket.py 77-109 (the time-out is put back in every case and not
    modelled). *)
Definition sock_isOpen (p : peek) : SM opener bool :=
  fun s =>
    match o_handle s with
    | None => (Ok false, s)
    | Some _ =>
        match p with
        | PeekByte | PeekWouldBlock | PeekSsl => (Ok true, s)
        | PeekEof | PeekError => (sock_close ;;; ret false) s
        end
    end.

(** * TSaslClientTransport.open, TTransport.py 377-406

    [sasl_process] and [sasl_complete] stand for the puresasl client object,
    whose state has type [G]; [process] may raise and may return None. *)
Section SaslOpen.
Context {T G : Type}.
Variable U : transport T.
Variable sasl_process : option (list byte) -> SM G (option (list byte)).
Variable sasl_complete : G -> bool.

Definition SASL_START := 1.
Definition SASL_OK := 2.
Definition SASL_COMPLETE := 5.

Definition on_fst {A} (m : SM T A) : SM (T * G) A :=
  fun s => let (r, t) := m (fst s) in (r, (t, snd s)).
Definition on_snd {A} (m : SM G A) : SM (T * G) A :=
  fun s => let (r, g) := m (snd s) in (r, (fst s, g)).

(** [x if x is not None else b''], 383 and 412-413 *)
Definition or_empty (x : option (list byte)) : list byte :=
  match x with Some b => b | None => [] end.

(** The loop, 385-406.  Fuel: one unit per message received. *)
Fixpoint sasl_loop (fuel : nat) : SM (T * G) unit :=
  match fuel with
  | O => diverge
  | S f =>
      m <- on_fst (recv_sasl_msg U) ;;
      let (status, challenge) := (m : Z * list byte) in
      if status =? SASL_OK then
        r <- on_snd (sasl_process (Some challenge)) ;;
        on_fst (send_sasl_msg U SASL_OK (or_empty r)) ;;;
        sasl_loop f
      else if status =? SASL_COMPLETE then
        (if negb (Z.of_nat (length challenge) =? 0)
         then on_snd (sasl_process (Some challenge)) ;;; ret tt
         else ret tt) ;;;
        fun s => if sasl_complete (snd s) then (Ok tt, s)
                 else (Raise (ETransport TT_NOT_OPEN), s)
      else raise (ETransport TT_NOT_OPEN)
  end.

(** open, 377-406 (the wrapped transport is already open). *)
Definition sasl_open (fuel : nat) (mechanism : list byte) : SM (T * G) unit :=
  on_fst (send_sasl_msg U SASL_START mechanism) ;;;
  r <- on_snd (sasl_process None) ;;
  on_fst (send_sasl_msg U SASL_OK (or_empty r)) ;;;
  sasl_loop fuel.
End SaslOpen.
