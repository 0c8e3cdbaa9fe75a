(** Outcomes, exceptions and the state monad in which the Python code is
    modelled.  No proofs here. *)
From Coq Require Import ZArith List Bool.
From Coq Require Import Init.Byte.
Import ListNotations.
Open Scope Z_scope.

(** Python exceptions, as values.  Thrift exceptions keep their [type] code:
    [ETransport] is TTransportException (lib/py/src/transport/TTransport.py
    26-41), [EProtocol] is TProtocolException (lib/py/src/protocol/TProtocol.py
    26-40), [EApplication] is TApplicationException (lib/py/src/Thrift.py
    94-111).  The others are built-in Python exceptions; messages are not
    modelled. *)
Inductive exn :=
| ETransport (type : Z)
| EProtocol (type : Z)
| EApplication (type : Z)
| EEOFError
| EStructError          (* struct.error *)
| EUnicodeDecode
| EUnicodeEncode
| EAssertion
| EKeyError
| EIndexError
| EValueError
| ETypeError
| EAttributeError
| EOSError              (* OSError, socket.error *)
| EZlib                 (* zlib.error *)
| EOverflow             (* OverflowError *)
| ENameError.           (* NameError, UnboundLocalError *)

(** TTransportException type codes, TTransport.py 29-36. *)
Definition TT_UNKNOWN := 0.
Definition TT_NOT_OPEN := 1.
Definition TT_TIMED_OUT := 3.
Definition TT_END_OF_FILE := 4.
Definition TT_NEGATIVE_SIZE := 5.
Definition TT_SIZE_LIMIT := 6.
Definition TT_INVALID_CLIENT_TYPE := 7.

(** TProtocolException type codes, TProtocol.py 29-36. *)
Definition TP_UNKNOWN := 0.
Definition TP_INVALID_DATA := 1.
Definition TP_NEGATIVE_SIZE := 2.
Definition TP_SIZE_LIMIT := 3.
Definition TP_BAD_VERSION := 4.
Definition TP_NOT_IMPLEMENTED := 5.
Definition TP_DEPTH_LIMIT := 6.
Definition TP_INVALID_PROTOCOL := 7.

(** TApplicationException type codes, Thrift.py 97-107. *)
Definition TA_UNKNOWN := 0.
Definition TA_UNKNOWN_METHOD := 1.
Definition TA_INVALID_MESSAGE_TYPE := 2.
Definition TA_WRONG_METHOD_NAME := 3.
Definition TA_BAD_SEQUENCE_ID := 4.
Definition TA_MISSING_RESULT := 5.
Definition TA_INTERNAL_ERROR := 6.
Definition TA_PROTOCOL_ERROR := 7.
Definition TA_INVALID_TRANSFORM := 8.
Definition TA_INVALID_PROTOCOL := 9.
Definition TA_UNSUPPORTED_CLIENT_TYPE := 10.

(** TMessageType, Thrift.py 60-64. *)
Definition CALL := 1.
Definition REPLY := 2.
Definition EXCEPTION := 3.
Definition ONEWAY := 4.

(** TType, Thrift.py 21-37. *)
Definition T_STOP := 0.
Definition T_VOID := 1.
Definition T_BOOL := 2.
Definition T_BYTE := 3.
Definition T_DOUBLE := 4.
Definition T_I16 := 6.
Definition T_I32 := 8.
Definition T_I64 := 10.
Definition T_STRING := 11.
Definition T_STRUCT := 12.
Definition T_MAP := 13.
Definition T_SET := 14.
Definition T_LIST := 15.
Definition T_UUID := 16.

(** Result of running a piece of Python code: a value, an exception, or (for
    loops given fuel) not finished yet.  [Diverge] is never a Python result. *)
Inductive outcome (A : Type) :=
| Ok (a : A)
| Raise (e : exn)
| Diverge.
Arguments Ok {A} a.
Arguments Raise {A} e.
Arguments Diverge {A}.

(** State-and-exception monad.  The state is returned on every outcome, since
    a Python exception does not undo assignments. *)
Definition SM (S A : Type) := S -> outcome A * S.

Definition ret {S A} (a : A) : SM S A := fun s => (Ok a, s).
Definition raise {S A} (e : exn) : SM S A := fun s => (Raise e, s).
Definition diverge {S A} : SM S A := fun s => (Diverge, s).
Definition bind {S A B} (m : SM S A) (k : A -> SM S B) : SM S B :=
  fun s => match m s with
           | (Ok a, s') => k a s'
           | (Raise e, s') => (Raise e, s')
           | (Diverge, s') => (Diverge, s')
           end.

(** [try: m finally: fin] where [fin] does not raise. *)
Definition try_finally {S A} (m : SM S A) (fin : S -> S) : SM S A :=
  fun s => match m s with (r, s') => (r, fin s') end.

(** [assert b] *)
Definition assert_ {S} (b : bool) : SM S unit :=
  if b then ret tt else raise EAssertion.

Declare Scope monad_scope.
Delimit Scope monad_scope with monad.
Notation "x <- m ;; k" := (bind m (fun x => k))
  (at level 61, m at next level, right associativity) : monad_scope.
Notation "' p <- m ;; k" := (bind m (fun x => let p := x in k))
  (at level 61, p pattern, m at next level, right associativity) : monad_scope.
Notation "m ;;; k" := (bind m (fun _ => k))
  (at level 61, right associativity) : monad_scope.
Open Scope monad_scope.

(** [for v in vals: f(v)] *)
Definition mapM_ {S A} (f : A -> SM S unit) : list A -> SM S unit :=
  fix go l := match l with
              | [] => ret tt
              | x :: r => f x ;;; go r
              end.

(** [for i in range(n): acc = f(acc)].  [range] of a negative number is empty.
    One unit of fuel per iteration. *)
Fixpoint repeatM {S A} (fuel : nat) (n : Z) (f : A -> SM S A) (acc : A)
  : SM S A :=
  if n <=? 0 then ret acc
  else match fuel with
       | O => diverge
       | Datatypes.S k => a <- f acc ;; repeatM k (n - 1) f a
       end.

(** State of a protocol object: its own attributes [px], the unread bytes and
    the written bytes of its [trans] (a TMemoryBuffer), and
    [_recursion_depth] (TProtocol.py 48-52).  Strings written are appended to
    [out].  Reading and writing share one protocol object here although a
    TMemoryBuffer is used in one direction only. *)
Record st (X : Type) := mkst {
  px : X;
  inp : list byte;
  out : list byte;
  depth : Z }.
Arguments mkst {X} px inp out depth.
Arguments px {X} s.
Arguments inp {X} s.
Arguments out {X} s.
Arguments depth {X} s.

Definition M (X A : Type) := SM (st X) A.

Definition get_px {X} : M X X := fun s => (Ok (px s), s).
Definition set_px {X} (x : X) : M X unit :=
  fun s => (Ok tt, mkst x (inp s) (out s) (depth s)).

(** TTransportBase.readAll (TTransport.py 59-71) on a TMemoryBuffer
    (TTransport.py 202-233): the loop asks [read] for what is missing, gets
    everything that is left in one chunk, and raises EOFError when a read
    returns nothing.  The loop body does not run when [n <= 0].  The chunked
    loop itself is modelled in Transport.v, where this summary is proved. *)
Definition readAll {X} (n : Z) : M X (list byte) :=
  fun s =>
    if n <=? 0 then (Ok [], s)
    else if n <=? Z.of_nat (length (inp s)) then
      (Ok (firstn (Z.to_nat n) (inp s)),
       mkst (px s) (skipn (Z.to_nat n) (inp s)) (out s) (depth s))
    else (Raise EEOFError, mkst (px s) [] (out s) (depth s)).

(** TMemoryBuffer.read (TTransport.py 232-233) for a positive size: at most
    [n] bytes, empty at end of input. *)
Definition tread {X} (n : nat) : M X (list byte) :=
  fun s => (Ok (firstn n (inp s)),
            mkst (px s) (skipn n (inp s)) (out s) (depth s)).

(** TMemoryBuffer.write (TTransport.py 235-236). *)
Definition twrite {X} (bs : list byte) : M X unit :=
  fun s => (Ok tt, mkst (px s) (inp s) (out s ++ bs) (depth s)).
