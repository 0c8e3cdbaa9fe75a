(** The C decoder of the accelerated protocols reading from a transport
    (lib/py/src/ext, with the cstringio_buf and cstringio_refill of the
    transports).  No proofs here.

    ExtRead.v has the decoder with a TMemoryBuffer under it.  Here the methods
    of the two implementation classes are given again over any [readBytes]; that
    they are the same methods is checked in ExtTransportFacts.v
    ([gbinary_memory], [gcompact_memory]). *)
From Coq Require Import ZArith List Bool.
From Coq Require Import Init.Byte.
From Verif Require Import Base Bytes Proto Dynamic Ext ExtRead Transport Zlib.
From Verif Require Header.
Import ListNotations.
Open Scope Z_scope.

(** * A CReadableTransport (TTransport.py 81-105)

    [c_buf] is the unread part of [cstringio_buf]; [c_setbuf] moves its
    position, as read_buffer does behind the back of Python (protocol.tcc
    139-149); [c_refill] is [cstringio_refill].  Every implementation returns
    the object it has just made its [cstringio_buf], so the decoder's
    [stringiobuf] and the transport's buffer are one object throughout. *)
Record creadable (T : Type) := mkcreadable {
  c_buf : T -> list byte;
  c_setbuf : list byte -> T -> T;
  c_refill : list byte -> Z -> SM T (list byte) }.
Arguments mkcreadable {T}.
Arguments c_buf {T} c.
Arguments c_setbuf {T} c.
Arguments c_refill {T} c.

(** readBytes (protocol.tcc 298-335), as far as the transport is concerned.
    The length of the partial read is passed to PyObject_CallFunction as an int
    where "y#i" takes a Py_ssize_t; that this works is assumed. *)
Definition c_readBytes {T} (C : creadable T) (len : Z) : SM T (list byte) :=
  fun t =>
    if len <? 0 then (Raise EValueError, t)
    else
      let b := c_buf C t in
      if len <=? Z.of_nat (length b) then
        (Ok (firstn (Z.to_nat len) b), c_setbuf C (skipn (Z.to_nat len) b) t)
      else
        match c_refill C b len (c_setbuf C [] t) with
        | (Ok _, t') =>
            let b' := c_buf C t' in
            if len <=? Z.of_nat (length b') then
              (Ok (firstn (Z.to_nat len) b'), c_setbuf C (skipn (Z.to_nat len) b') t')
            else (Raise ETypeError, c_setbuf C [] t')
        | (Raise e, t') => (Raise e, t')
        | (Diverge, t') => (Diverge, t')
        end.

(** The same in the state of the decoder: its own attributes and the transport. *)
Definition t_readBytes {T X} (C : creadable T) (len : Z) : M (X * T) (list byte) :=
  fun s => match c_readBytes C len (snd (px s)) with
           | (r, t) => (r, mkst (fst (px s), t) (inp s) (out s) (depth s))
           end.

(** * BinaryProtocol (ext/binary.h, ext/binary.cpp) *)

Section Binary.
Variable big : bool.
Variables string_limit container_limit : option Z.
Context {Y : Type}.
Variable rb : Z -> M Y (list byte).
Notation MB := (M Y).

(** readByte (protocol.h 65-72) *)
Definition g_readU8 : MB Z := l <- rb 1 ;; ret (be_val l).


(** 102-109 *)
Definition gb_readBool : MB bool := z <- g_readU8 ;; ret (sN 1 z =? 1).
(** 111-118 *)
Definition gb_readI8 : MB Z := z <- g_readU8 ;; ret (sN 1 z).
(** 120-128 *)
Definition gb_readI16 : MB Z :=
  l <- rb 2 ;; ret (sN 2 (hton big 2 (of_memory big l))).
(** 130-138 *)
Definition gb_readI32 : MB Z :=
  l <- rb 4 ;; ret (sN 4 (hton big 4 (of_memory big l))).
(** 140-148 *)
Definition gb_readI64 : MB Z :=
  l <- rb 8 ;; ret (sN 8 (htonll big (of_memory big l))).
(** 150-161 *)
Definition gb_readDouble : MB Z := z <- gb_readI64 ;; ret (uN 8 z).
(** 163-169 *)
Definition gb_readString : MB (list byte) :=
  len <- gb_readI32 ;;
  checkLengthLimit len (as_limit string_limit) ;;;
  rb len.
(** 171-176 and its use at protocol.tcc 895-899: the result -1 of a failed read
    counts as success there, and 16 bytes are taken from where the buffer
    ended. *)
Definition gb_readUuid : MB (list byte) :=
  fun s => match rb 16 s with
           | (Raise _, s') => (Raise OVERREAD, s')
           | r => r
           end.
(** 178-186 *)
Definition gb_readListBegin : MB (Z * Z) :=
  b <- g_readU8 ;;
  len <- gb_readI32 ;;
  checkLengthLimit len (as_limit container_limit) ;;;
  ret (b, len).
(** 188-197 *)
Definition gb_readMapBegin : MB (Z * Z * Z) :=
  k <- g_readU8 ;;
  v <- g_readU8 ;;
  len <- gb_readI32 ;;
  checkLengthLimit len (as_limit container_limit) ;;;
  ret (k, v, len).
(** binary.cpp 26-37 *)
Definition gb_readFieldBegin : MB (Z * Z) :=
  type <- g_readU8 ;;
  if type =? T_STOP then ret (type, 0)
  else tag <- gb_readI16 ;; ret (type, tag).
(** g_SKIPBYTES, 204-210 *)
Definition g_SKIPBYTES (n : Z) : MB unit := rb n ;;; ret tt.
(** 218-224: no limit is checked. *)
Definition gb_skipString : MB unit := len <- gb_readI32 ;; g_SKIPBYTES len.

Definition gbinary : dimpl Y := {|
  d_readBool := gb_readBool;
  d_readI8 := gb_readI8;
  d_readI16 := gb_readI16;
  d_readI32 := gb_readI32;
  d_readI64 := gb_readI64;
  d_readDouble := gb_readDouble;
  d_readString := gb_readString;
  d_readUuid := gb_readUuid;
  d_readListBegin := gb_readListBegin;
  d_readMapBegin := gb_readMapBegin;
  d_readStructBegin := ret tt;               (* 199 *)
  d_readStructEnd := fun s => s;             (* 200 *)
  d_readFieldBegin := gb_readFieldBegin;
  d_skipBool := g_SKIPBYTES 1;                 (* 212-217 *)
  d_skipByte := g_SKIPBYTES 1;
  d_skipI16 := g_SKIPBYTES 2;
  d_skipI32 := g_SKIPBYTES 4;
  d_skipI64 := g_SKIPBYTES 8;
  d_skipDouble := g_SKIPBYTES 8;
  d_skipString := gb_skipString;
  d_skipUuid := g_SKIPBYTES 16 |}.             (* 225 *)
End Binary.


(** * CompactProtocol (ext/compact.h, ext/compact.cpp)

    [gx] and [sx] read and replace [readTags_] and [readBool_] in the state. *)
Section Compact.
Variable big : bool.
Variables string_limit container_limit : option Z.
Context {Y : Type}.
Variable rb : Z -> M Y (list byte).
Variable gx : Y -> crd.
Variable sx : crd -> Y -> Y.
Notation MT := (M Y).
Notation g_readU8 := (g_readU8 rb).
Notation g_SKIPBYTES := (g_SKIPBYTES rb).

Definition g_get : MT crd := fun s => (Ok (gx (px s)), s).
Definition g_set (x : crd) : MT unit :=
  fun s => (Ok tt, mkst (sx x (px s)) (inp s) (out s) (depth s)).


(** readVarint<T, Max> (compact.h 340-360), [w] bytes wide. *)
Fixpoint g_varint (max : nat) (w : nat) (shift val : Z) : MT Z :=
  match max with
  | O => raise EOverflow
  | S k =>
      b <- g_readU8 ;;
      if negb (Z.land b 128 =? 0)
      then g_varint k w (shift + 7)
             (uN w (Z.lor val (Z.shiftl (Z.land b 127) shift)))
      else ret (uN w (Z.lor val (Z.shiftl b shift)))
  end.

(** 116-128 *)
Definition gc_readBool : MT bool :=
  x <- g_get ;;
  match rbool x with
  | Some b => g_set (mkcrd (tags x) None) ;;; ret b
  | None => z <- g_readU8 ;; ret (sN 1 z =? 1)
  end.
(** 129-136 *)
Definition gc_readI8 : MT Z := z <- g_readU8 ;; ret (sN 1 z).
(** 138-163 *)
Definition gc_readI16 : MT Z := u <- g_varint 3 2 0 0 ;; ret (cfromZigZag 2 u).
Definition gc_readI32 : MT Z := u <- g_varint 5 4 0 0 ;; ret (cfromZigZag 4 u).
Definition gc_readI64 : MT Z := u <- g_varint 10 8 0 0 ;; ret (cfromZigZag 8 u).
(** 165-179 *)
Definition gc_readDouble : MT Z :=
  l <- rb 8 ;;
  ret (uN 8 (sN 8 (htolell big (of_memory big l)))).
(** 181-193 *)
Definition gc_readString : MT (list byte) :=
  len <- g_varint 5 4 0 0 ;;
  checkLengthLimit len (as_limit string_limit) ;;;
  if len =? 0 then ret [] else rb (sN 4 len).
(** 243-248 *)
Definition gc_readUuid : MT (list byte) := rb 16.
(** g_getTType (compact.cpp 77-111): TypeError on an unknown code. *)
Definition g_getTType (ct : Z) : MT Z :=
  if ct =? 0 then ret T_STOP
  else if (ct =? 1) || (ct =? 2) then ret T_BOOL
  else if ct =? 3 then ret T_BYTE
  else if ct =? 4 then ret T_I16
  else if ct =? 5 then ret T_I32
  else if ct =? 6 then ret T_I64
  else if ct =? 7 then ret T_DOUBLE
  else if ct =? 8 then ret T_STRING
  else if ct =? 9 then ret T_LIST
  else if ct =? 10 then ret T_SET
  else if ct =? 11 then ret T_MAP
  else if ct =? 12 then ret T_STRUCT
  else if ct =? 13 then ret T_UUID
  else raise ETypeError.
(** 195-212 *)
Definition gc_readListBegin : MT (Z * Z) :=
  b <- g_readU8 ;;
  etype <- g_getTType (Z.land b 15) ;;
  let len0 := Z.land (Z.shiftr b 4) 15 in
  len <- (if len0 =? 15 then g_varint 5 4 0 0 else ret len0) ;;
  checkLengthLimit len (as_limit container_limit) ;;;
  ret (etype, sN 4 len).
(** 214-231: of an empty map no types are read; both stay T_STOP, as the
    callers initialise them. *)
Definition gc_readMapBegin : MT (Z * Z * Z) :=
  len <- g_varint 5 4 0 0 ;;
  checkLengthLimit len (as_limit container_limit) ;;;
  if negb (len =? 0) then
    kv <- g_readU8 ;;
    ktype <- g_getTType (Z.shiftr kv 4) ;;
    vtype <- g_getTType (Z.land kv 15) ;;
    ret (ktype, vtype, sN 4 len)
  else ret (T_STOP, T_STOP, sN 4 len).
(** 233-240 *)
Definition gc_readStructBegin : MT unit :=
  x <- g_get ;; g_set (mkcrd (0 :: tags x) (rbool x)).
Definition gc_readStructEnd (s : st Y) : st Y :=
  mkst (sx (mkcrd (tl (tags (gx (px s)))) (rbool (gx (px s)))) (px s))
    (inp s) (out s) (depth s).
(** compact.cpp 49-75.  The id is an int16_t: the sum wraps.  The assignment
    [readTags_.top() = -1] on the failure path is left out: the decoder object
    is thrown away. *)
Definition gc_readFieldBegin : MT (Z * Z) :=
  b <- g_readU8 ;;
  let ctype := Z.land b 15 in
  type <- g_getTType ctype ;;
  if type =? T_STOP then ret (type, 0)
  else
    let diff := Z.shiftr (Z.land b 240) 4 in
    x <- g_get ;;
    tag <- (if negb (diff =? 0) then ret (sN 2 (hd 0 (tags x) + diff))
            else gc_readI16) ;;
    g_set (mkcrd (tag :: tl (tags x))
              (if (ctype =? 2) || (ctype =? 1) then Some (ctype =? 1)
               else rbool x)) ;;;
    ret (type, tag).
(** 275-281: no limit is checked; the length goes through an int parameter. *)
Definition gc_skipString : MT unit :=
  len <- g_varint 5 4 0 0 ;; g_SKIPBYTES (sN 4 len).

Definition gcompact : dimpl Y := {|
  d_readBool := gc_readBool;
  d_readI8 := gc_readI8;
  d_readI16 := gc_readI16;
  d_readI32 := gc_readI32;
  d_readI64 := gc_readI64;
  d_readDouble := gc_readDouble;
  d_readString := gc_readString;
  d_readUuid := gc_readUuid;
  d_readListBegin := gc_readListBegin;
  d_readMapBegin := gc_readMapBegin;
  d_readStructBegin := gc_readStructBegin;
  d_readStructEnd := gc_readStructEnd;
  d_readFieldBegin := gc_readFieldBegin;
  d_skipBool := gc_readBool ;;; ret tt;      (* 250-253 *)
  d_skipByte := g_SKIPBYTES 1;                 (* 261-262 *)
  d_skipI16 := gc_readI16 ;;; ret tt;        (* 263-274 *)
  d_skipI32 := gc_readI32 ;;; ret tt;
  d_skipI64 := gc_readI64 ;;; ret tt;
  d_skipDouble := g_SKIPBYTES 8;
  d_skipString := gc_skipString;
  d_skipUuid := g_SKIPBYTES 16 |}.
End Compact.


(** * The decoder over a transport *)

Definition tbinary {T} (C : creadable T) (big : bool) (sl cl : option Z)
  : dimpl (unit * T) := gbinary big sl cl (t_readBytes C).
Definition tcompact {T} (C : creadable T) (big : bool) (sl cl : option Z)
  : dimpl (crd * T) := gcompact big sl cl (t_readBytes C) fst (fun x y => (x, snd y)).

(** decode_impl (module.cpp 83-116) with prepareDecodeBufferFromTransport
    (protocol.tcc 339-366): one struct read from the transport. *)
Definition fast_read {T X} (D : dimpl (X * T)) (x0 : X) (env : schema) (fuel : nat)
    (n : nat) : SM T value :=
  fun t => match cread_struct D env 66 fuel n (mkst (x0, t) [] [] 0) with
           | (r, s) => (r, snd (px s))
           end.

(** Several structs one after the other, each with a decoder of its own. *)
Fixpoint fast_reads {T X} (D : dimpl (X * T)) (x0 : X) (env : schema) (fuel : nat)
    (ns : list nat) : SM T (list value) :=
  match ns with
  | [] => ret []
  | n :: r => v <- fast_read D x0 env fuel n ;;
              vs <- fast_reads D x0 env fuel r ;;
              ret (v :: vs)
  end.

(** * The transports *)

Definition w_setbuf {T} (b : list byte) (w : wrap T) : wrap T :=
  mkwrap (w_trans w) b (w_wbuf w).

(** TBufferedTransport, 183-199 *)
Definition creadable_buffered {T} (U : transport T) (rbuf_size : Z) : creadable (wrap T) :=
  mkcreadable w_rbuf w_setbuf (buffered_refill U rbuf_size).

(** TFramedTransport, 308-321 *)
Definition creadable_framed {T} (U : transport T) (fuel : nat) : creadable (wrap T) :=
  mkcreadable w_rbuf w_setbuf (framed_refill U fuel).

(** TSaslClientTransport.cstringio_refill, 460-468 *)
Fixpoint sasl_refill_loop {T} (U : transport T) (unwrap : list byte -> outcome (list byte))
    (fuel : nat) (prefix : list byte) (reqlen : Z) : SM (wrap T) (list byte) :=
  match fuel with
  | O => diverge
  | S k =>
      if Z.of_nat (length prefix) <? reqlen then
        sasl_read_frame U unwrap ;;;
        frame <- (fun s => (Ok (w_rbuf s), s)) ;;
        sasl_refill_loop U unwrap k (prefix ++ frame) reqlen
      else ret prefix
  end.
Definition sasl_refill {T} (U : transport T) (unwrap : list byte -> outcome (list byte))
    (fuel : nat) (prefix : list byte) (reqlen : Z) : SM (wrap T) (list byte) :=
  r <- sasl_refill_loop U unwrap fuel prefix reqlen ;;
  set_rbuf r ;;;
  ret r.
(** TSaslClientTransport, 455-468 *)
Definition creadable_sasl {T} (U : transport T) (unwrap : list byte -> outcome (list byte))
    (fuel : nat) : creadable (wrap T) :=
  mkcreadable w_rbuf w_setbuf (sasl_refill U unwrap fuel).

(** TZlibTransport, 251-264 *)
Definition z_setbuf {T D C} (b : list byte) (z : zt T D C) : zt T D C :=
  mkzt (z_trans z) b (z_wbuf z) (z_dec z) (z_comp z) (z_count z)
    (z_in z) (z_in_comp z) (z_out z) (z_out_comp z).
Definition creadable_zlib {T D C} (U : transport T)
    (decompress : list byte -> Z -> SM D (list byte)) (tail : D -> list byte) (max : Z)
    (fuel rfuel : nat) : creadable (zt T D C) :=
  mkcreadable z_rbuf z_setbuf (z_refill U decompress tail max fuel rfuel).

(** THeaderTransport, 357-366 *)
Definition creadable_header {T} (U : transport T)
    (decompress : list byte -> Z -> option (list byte * list byte)) (allowed : list Z)
    (fuel : nat) : creadable (Header.hdr T) :=
  mkcreadable Header.h_rbuf (fun b h => Header.with_rbuf h b)
    (Header.refill U decompress allowed fuel).
