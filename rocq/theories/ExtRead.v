(** The C decoder of the accelerated protocols (lib/py/src/ext), Python 3
    branches, reading from a TMemoryBuffer.  No proofs here.

    The conventions are those of Ext.v: C integers are [Z] with explicit
    conversions, a C function that fails with a Python exception set is
    [Raise], the byte order of the machine is a parameter.  Allocation
    (PyList_New(len) before the elements are read, protocol.tcc 803-806) does
    not fail.  Structs and containers are the mutable kind.  Loops carry fuel:
    one unit per iteration. *)
From Coq Require Import ZArith List Bool.
From Coq Require Import Init.Byte.
From Verif Require Import Base Bytes Utf8 Proto Dynamic Ext.
Import ListNotations.
Open Scope Z_scope.

(** Not an exception of the code: it stands for a read outside the input
    buffer, after which nothing is known. *)
Definition OVERREAD : exn := EProtocol (-2).

(** The integer whose memory image is [l] (memcpy into an unsigned object). *)
Definition of_memory (big : bool) (l : list byte) : Z :=
  if big then be_val l else le_val l.

(** PyUnicode_DecodeUTF8(..., "replace"): as the strict decoder, but each
    maximal prefix of a sequence that cannot be completed gives one U+FFFD. *)
Fixpoint utf8_replace (l : list byte) : list Z :=
  match l with
  | [] => []
  | b0 :: r0 =>
      if b2z b0 <? 128 then b2z b0 :: utf8_replace r0
      else if in_range 194 223 b0 then
        match r0 with
        | b1 :: r1 =>
            if cont b1
            then (b2z b0 - 192) * 64 + (b2z b1 - 128) :: utf8_replace r1
            else 65533 :: utf8_replace r0
        | [] => [65533]
        end
      else if in_range 224 239 b0 then
        match r0 with
        | b1 :: r1 =>
            if cont b1 && (negb (b2z b0 =? 224) || (160 <=? b2z b1))
               && (negb (b2z b0 =? 237) || (b2z b1 <=? 159))
            then match r1 with
                 | b2 :: r2 =>
                     if cont b2
                     then (b2z b0 - 224) * 4096 + (b2z b1 - 128) * 64
                          + (b2z b2 - 128) :: utf8_replace r2
                     else 65533 :: utf8_replace r1
                 | [] => [65533]
                 end
            else 65533 :: utf8_replace r0
        | [] => [65533]
        end
      else if in_range 240 244 b0 then
        match r0 with
        | b1 :: r1 =>
            if cont b1 && (negb (b2z b0 =? 240) || (144 <=? b2z b1))
               && (negb (b2z b0 =? 244) || (b2z b1 <=? 143))
            then match r1 with
                 | b2 :: r2 =>
                     if cont b2
                     then match r2 with
                          | b3 :: r3 =>
                              if cont b3
                              then (b2z b0 - 240) * 262144
                                   + (b2z b1 - 128) * 4096
                                   + (b2z b2 - 128) * 64 + (b2z b3 - 128)
                                   :: utf8_replace r3
                              else 65533 :: utf8_replace r2
                          | [] => [65533]
                          end
                     else 65533 :: utf8_replace r1
                 | [] => [65533]
                 end
            else 65533 :: utf8_replace r0
        | [] => [65533]
        end
      else 65533 :: utf8_replace r0
  end.

(** as_long_then_delete (module.cpp 73-81) on a limit attribute: None, or an
    integer that does not fit a C long, gives INT32_MAX (module.cpp 91-98). *)
Definition as_limit (o : option Z) : Z :=
  match o with
  | Some l =>
      if (-9223372036854775808 <=? l) && (l <=? 9223372036854775807)
      then l else 2147483647
  | None => 2147483647
  end.

(** readBytes (protocol.tcc 298-335) with read_buffer (149-159) on a BytesIO
    and TMemoryBuffer.cstringio_refill (TTransport.py 249-251), which raises
    EOFError.  The position moves to the end of the buffer on a short read. *)
Definition readBytes {X} (len : Z) : M X (list byte) :=
  fun s =>
    if len <? 0 then (Raise EValueError, s)
    else if len <=? Z.of_nat (length (inp s)) then
      (Ok (firstn (Z.to_nat len) (inp s)),
       mkst (px s) (skipn (Z.to_nat len) (inp s)) (out s) (depth s))
    else (Raise EEOFError, mkst (px s) [] (out s) (depth s)).

(** readByte (protocol.h 65-72) *)
Definition readU8 {X} : M X Z :=
  l <- readBytes 1 ;; ret (be_val l).

(** checkLengthLimit (protocol.tcc 260-271); the length goes through an int32_t
    parameter. *)
Definition checkLengthLimit {X} (len limit : Z) : M X unit :=
  let n := sN 4 len in
  if n <? 0 then raise EOverflow
  else if n >? limit then raise EOverflow
  else ret tt.

(** * What an implementation class offers to the decoder

    [d_readString] gives the bytes; [d_readListBegin] and [d_readMapBegin] the
    types and the number of elements (a negative result is [Raise]);
    [d_readFieldBegin] the type and the id. *)
Record dimpl (X : Type) := mkdimpl {
  d_readBool : M X bool;
  d_readI8 : M X Z;
  d_readI16 : M X Z;
  d_readI32 : M X Z;
  d_readI64 : M X Z;
  d_readDouble : M X Z;
  d_readString : M X (list byte);
  d_readUuid : M X (list byte);
  d_readListBegin : M X (Z * Z);
  d_readMapBegin : M X (Z * Z * Z);
  d_readStructBegin : M X unit;
  d_readStructEnd : st X -> st X;
  d_readFieldBegin : M X (Z * Z);
  d_skipBool : M X unit;
  d_skipByte : M X unit;
  d_skipI16 : M X unit;
  d_skipI32 : M X unit;
  d_skipI64 : M X unit;
  d_skipDouble : M X unit;
  d_skipString : M X unit;
  d_skipUuid : M X unit }.
Arguments d_readBool {X} d.        Arguments d_readI8 {X} d.
Arguments d_readI16 {X} d.         Arguments d_readI32 {X} d.
Arguments d_readI64 {X} d.         Arguments d_readDouble {X} d.
Arguments d_readString {X} d.      Arguments d_readUuid {X} d.
Arguments d_readListBegin {X} d.   Arguments d_readMapBegin {X} d.
Arguments d_readStructBegin {X} d. Arguments d_readStructEnd {X} d.
Arguments d_readFieldBegin {X} d.  Arguments d_skipBool {X} d.
Arguments d_skipByte {X} d.        Arguments d_skipI16 {X} d.
Arguments d_skipI32 {X} d.         Arguments d_skipI64 {X} d.
Arguments d_skipDouble {X} d.      Arguments d_skipString {X} d.
Arguments d_skipUuid {X} d.

Section Decoder.
Context {X : Type}.
Variable D : dimpl X.

(** ReadStructScope (protocol.tcc 190-207): readStructEnd runs when the scope
    is left, also on failure. *)
Definition read_scope {A} (m : M X A) : M X A :=
  d_readStructBegin D ;;; try_finally m (d_readStructEnd D).

(** The struct loop of [skip] (protocol.tcc 690-702). *)
Fixpoint cskip_fields (fuel : nat) (sk : Z -> M X unit) : M X unit :=
  match fuel with
  | O => diverge
  | S f =>
      '(type, _) <- d_readFieldBegin D ;;
      if type =? T_STOP then ret tt
      else sk type ;;; cskip_fields f sk
  end.

(** skip (protocol.tcc 631-721).  The RecursionGuard is entered on every call,
    for scalars too, and counts together with the structs being read.  [dfuel]
    bounds the nesting of calls. *)
Fixpoint cskip (fuel dfuel : nat) (type : Z) : M X unit :=
  match dfuel with
  | O => diverge
  | S k =>
      recursion_guard (
        if type =? T_BOOL then d_skipBool D
        else if type =? T_BYTE then d_skipByte D
        else if type =? T_I16 then d_skipI16 D
        else if type =? T_I32 then d_skipI32 D
        else if type =? T_I64 then d_skipI64 D
        else if type =? T_DOUBLE then d_skipDouble D
        else if type =? T_STRING then d_skipString D
        else if (type =? T_LIST) || (type =? T_SET) then
          '(etype, len) <- d_readListBegin D ;;
          repeatM fuel len (fun _ : unit => cskip fuel k etype) tt
        else if type =? T_MAP then
          '(ktype, vtype, len) <- d_readMapBegin D ;;
          repeatM fuel len
            (fun _ : unit => cskip fuel k ktype ;;; cskip fuel k vtype) tt
        else if type =? T_STRUCT then
          read_scope (cskip_fields fuel (cskip fuel k))
        else if type =? T_UUID then d_skipUuid D
        else raise ETypeError)
  end.

(** decodeValue for the types other than containers and structs (protocol.tcc
    727-794, 895-922).  The isUtf8 test tells string from binary. *)
Definition decode_base (t : ty) : M X value :=
  match t with
  | TBool => b <- d_readBool D ;; ret (VBool b)
  | TByte => z <- d_readI8 D ;; ret (VInt z)
  | TI16 => z <- d_readI16 D ;; ret (VInt z)
  | TI32 => z <- d_readI32 D ;; ret (VInt z)
  | TI64 => z <- d_readI64 D ;; ret (VInt z)
  | TDouble => z <- d_readDouble D ;; ret (VDouble z)
  | TString => l <- d_readString D ;; ret (VStr (utf8_replace l))
  | TBinary => l <- d_readString D ;; ret (VBin l)
  | TUuid => l <- d_readUuid D ;; ret (VUuid l)
  | _ => raise ETypeError
  end.

(** The map case of decodeValue stores the -1 of a failed readMapBegin in a
    uint32_t and goes on to checkType with the types as they are: T_STOP, or
    one of them -1 in the compact protocol, so that checkType fails and its
    TypeError replaces the exception (protocol.tcc 846-851). *)
Definition map_begin : M X (Z * Z * Z) :=
  fun s => match d_readMapBegin D s with
           | (Raise _, s') => (Raise ETypeError, s')
           | r => r
           end.

(** decodeValue (protocol.tcc 723-935), given [rs] for struct classes.  A set
    is built from the list of its elements at the end (PySet_New). *)
Fixpoint decodeValue (rs : nat -> M X value) (fuel : nat) (t : ty)
  : M X value :=
  match t with
  | TList et =>
      '(etype, len) <- d_readListBegin D ;;
      (if (len >? 0) && negb (etype =? code et) then raise ETypeError
       else ret tt) ;;;
      l <- repeatM fuel len
             (fun acc => v <- decodeValue rs fuel et ;; ret (acc ++ [v])) [] ;;
      ret (VList l)
  | TSet et =>
      '(etype, len) <- d_readListBegin D ;;
      (if (len >? 0) && negb (etype =? code et) then raise ETypeError
       else ret tt) ;;;
      l <- repeatM fuel len
             (fun acc => v <- decodeValue rs fuel et ;; ret (acc ++ [v])) [] ;;
      if hashable et || match l with [] => true | _ => false end
      then ret (VSet (fold_left set_add l []))
      else raise ETypeError
  | TMap kt vt =>
      '(ktype, vtype, len) <- map_begin ;;
      (if (len >? 0)
          && (negb (ktype =? code kt) || negb (vtype =? code vt))
       then raise ETypeError else ret tt) ;;;
      l <- repeatM fuel len
             (fun acc => k <- decodeValue rs fuel kt ;;
                         v <- decodeValue rs fuel vt ;;
                         if hashable kt then ret (dict_set acc k v)
                         else raise ETypeError) [] ;;
      ret (VMap l)
  | TStruct n => rs n
  | _ => decode_base t
  end.

(** The loop of readStruct (protocol.tcc 990-1043).  A negative or too large id,
    a hole in the table and a field of another type are skipped. *)
Fixpoint cread_fields (fuel skfuel skdepth : nat) (rv : ty -> M X value)
    (spec : list (option (nat * fielddef))) (acc : list (option value))
  : M X (list (option value)) :=
  match fuel with
  | O => diverge
  | S f =>
      '(type, tag) <- d_readFieldBegin D ;;
      if type =? T_STOP then ret acc
      else
        let again := cskip skfuel skdepth type ;;;
                     cread_fields f skfuel skdepth rv spec acc in
        if (tag <? 0) || (tag >=? Z.of_nat (length spec)) then again
        else match nth_error spec (Z.to_nat tag) with
             | Some (Some (i, d)) =>
                 if negb (code (f_ty d) =? type) then again
                 else
                   v <- rv (f_ty d) ;;
                   cread_fields f skfuel skdepth rv spec
                     (set_nth i (Some v) acc)
             | _ => again
             end
  end.

Variable env : schema.

(** readStruct (protocol.tcc 937-1053) for a class without __setattr__ of its
    own: the object is [klass()], with its defaults, or the caller's new
    object. *)
Fixpoint cread_struct (dfuel fuel : nat) (n : nat) : M X value :=
  match dfuel with
  | O => diverge
  | S k =>
      match nth_error env n with
      | None => raise ETypeError
      | Some ds =>
          recursion_guard (read_scope (
            acc <- cread_fields fuel fuel (S k)
                     (decodeValue (cread_struct k fuel) fuel)
                     (thrift_spec ds) (fresh ds) ;;
            ret (VStruct n acc)))
      end
  end.
End Decoder.

(** decode_impl (module.cpp 83-116), called by the generated [read]
    (t_py_generator.cc 1109-1119) on a TMemoryBuffer holding [buf].  Also
    returns the bytes left unread. *)
Definition fast_deserialize {X} (D : dimpl X) (x0 : X) (env : schema) (n : nat)
    (buf : list byte) : outcome (value * list byte) :=
  match cread_struct D env 66 (S (length buf)) n (mkst x0 buf [] 0) with
  | (Ok v, s) => Ok (v, inp s)
  | (Raise e, _) => Raise e
  | (Diverge, _) => Diverge
  end.

(** * BinaryProtocol (ext/binary.h, ext/binary.cpp) *)

Section Binary.
Variable big : bool.
Variables string_limit container_limit : option Z.
Notation MB := (M unit).

(** 102-109 *)
Definition eb_readBool : MB bool := z <- readU8 ;; ret (sN 1 z =? 1).
(** 111-118 *)
Definition eb_readI8 : MB Z := z <- readU8 ;; ret (sN 1 z).
(** 120-128 *)
Definition eb_readI16 : MB Z :=
  l <- readBytes 2 ;; ret (sN 2 (hton big 2 (of_memory big l))).
(** 130-138 *)
Definition eb_readI32 : MB Z :=
  l <- readBytes 4 ;; ret (sN 4 (hton big 4 (of_memory big l))).
(** 140-148 *)
Definition eb_readI64 : MB Z :=
  l <- readBytes 8 ;; ret (sN 8 (htonll big (of_memory big l))).
(** 150-161 *)
Definition eb_readDouble : MB Z := z <- eb_readI64 ;; ret (uN 8 z).
(** 163-169 *)
Definition eb_readString : MB (list byte) :=
  len <- eb_readI32 ;;
  checkLengthLimit len (as_limit string_limit) ;;;
  readBytes len.
(** 171-176 and its use at protocol.tcc 895-899: the result -1 of a failed read
    counts as success there, and 16 bytes are taken from where the buffer
    ended. *)
Definition eb_readUuid : MB (list byte) :=
  fun s => match readBytes 16 s with
           | (Raise _, s') => (Raise OVERREAD, s')
           | r => r
           end.
(** 178-186 *)
Definition eb_readListBegin : MB (Z * Z) :=
  b <- readU8 ;;
  len <- eb_readI32 ;;
  checkLengthLimit len (as_limit container_limit) ;;;
  ret (b, len).
(** 188-197 *)
Definition eb_readMapBegin : MB (Z * Z * Z) :=
  k <- readU8 ;;
  v <- readU8 ;;
  len <- eb_readI32 ;;
  checkLengthLimit len (as_limit container_limit) ;;;
  ret (k, v, len).
(** binary.cpp 26-37 *)
Definition eb_readFieldBegin : MB (Z * Z) :=
  type <- readU8 ;;
  if type =? T_STOP then ret (type, 0)
  else tag <- eb_readI16 ;; ret (type, tag).
(** SKIPBYTES, 204-210 *)
Definition SKIPBYTES {X} (n : Z) : M X unit := readBytes n ;;; ret tt.
(** 218-224: no limit is checked. *)
Definition eb_skipString : MB unit := len <- eb_readI32 ;; SKIPBYTES len.

Definition dbinary : dimpl unit := {|
  d_readBool := eb_readBool;
  d_readI8 := eb_readI8;
  d_readI16 := eb_readI16;
  d_readI32 := eb_readI32;
  d_readI64 := eb_readI64;
  d_readDouble := eb_readDouble;
  d_readString := eb_readString;
  d_readUuid := eb_readUuid;
  d_readListBegin := eb_readListBegin;
  d_readMapBegin := eb_readMapBegin;
  d_readStructBegin := ret tt;               (* 199 *)
  d_readStructEnd := fun s => s;             (* 200 *)
  d_readFieldBegin := eb_readFieldBegin;
  d_skipBool := SKIPBYTES 1;                 (* 212-217 *)
  d_skipByte := SKIPBYTES 1;
  d_skipI16 := SKIPBYTES 2;
  d_skipI32 := SKIPBYTES 4;
  d_skipI64 := SKIPBYTES 8;
  d_skipDouble := SKIPBYTES 8;
  d_skipString := eb_skipString;
  d_skipUuid := SKIPBYTES 16 |}.             (* 225 *)
End Binary.

(** * CompactProtocol (ext/compact.h, ext/compact.cpp)

    The state: [readTags_], top first, and [readBool_]. *)
Record crd := mkcrd { tags : list Z; rbool : option bool }.

Section Compact.
Variable big : bool.
Variables string_limit container_limit : option Z.
Notation MT := (M crd).

(** readVarint<T, Max> (compact.h 340-360), [w] bytes wide. *)
Fixpoint cread_varint (max : nat) (w : nat) (shift val : Z) : MT Z :=
  match max with
  | O => raise EOverflow
  | S k =>
      b <- readU8 ;;
      if negb (Z.land b 128 =? 0)
      then cread_varint k w (shift + 7)
             (uN w (Z.lor val (Z.shiftl (Z.land b 127) shift)))
      else ret (uN w (Z.lor val (Z.shiftl b shift)))
  end.

(** fromZigZag<S, U> (362-365) *)
Definition cfromZigZag (w : nat) (u : Z) : Z :=
  sN w (Z.lxor (Z.shiftr u 1) (uN w (- sN w (Z.land u 1)))).

(** 116-128 *)
Definition ec_readBool : MT bool :=
  x <- get_px ;;
  match rbool x with
  | Some b => set_px (mkcrd (tags x) None) ;;; ret b
  | None => z <- readU8 ;; ret (sN 1 z =? 1)
  end.
(** 129-136 *)
Definition ec_readI8 : MT Z := z <- readU8 ;; ret (sN 1 z).
(** 138-163 *)
Definition ec_readI16 : MT Z := u <- cread_varint 3 2 0 0 ;; ret (cfromZigZag 2 u).
Definition ec_readI32 : MT Z := u <- cread_varint 5 4 0 0 ;; ret (cfromZigZag 4 u).
Definition ec_readI64 : MT Z := u <- cread_varint 10 8 0 0 ;; ret (cfromZigZag 8 u).
(** 165-179 *)
Definition ec_readDouble : MT Z :=
  l <- readBytes 8 ;;
  ret (uN 8 (sN 8 (htolell big (of_memory big l)))).
(** 181-193 *)
Definition ec_readString : MT (list byte) :=
  len <- cread_varint 5 4 0 0 ;;
  checkLengthLimit len (as_limit string_limit) ;;;
  if len =? 0 then ret [] else readBytes (sN 4 len).
(** 243-248 *)
Definition ec_readUuid : MT (list byte) := readBytes 16.
(** getTType (compact.cpp 77-111): TypeError on an unknown code. *)
Definition getTType (ct : Z) : MT Z :=
  if ct =? 0 then ret T_STOP
  else if (ct =? 1) || (ct =? 2) then ret T_BOOL
  else if ct =? 3 then ret T_BYTE
  else if ct =? 4 then ret T_I16
  else if ct =? 5 then ret T_I32
  else if ct =? 6 then ret T_I64
  else if ct =? 7 then ret T_DOUBLE
  else if ct =? 8 then ret T_STRING
  else if ct =? 9 then ret T_LIST
  else if ct =? 10 then ret T_SET
  else if ct =? 11 then ret T_MAP
  else if ct =? 12 then ret T_STRUCT
  else if ct =? 13 then ret T_UUID
  else raise ETypeError.
(** 195-212 *)
Definition ec_readListBegin : MT (Z * Z) :=
  b <- readU8 ;;
  etype <- getTType (Z.land b 15) ;;
  let len0 := Z.land (Z.shiftr b 4) 15 in
  len <- (if len0 =? 15 then cread_varint 5 4 0 0 else ret len0) ;;
  checkLengthLimit len (as_limit container_limit) ;;;
  ret (etype, sN 4 len).
(** 214-231: of an empty map no types are read; both stay T_STOP, as the
    callers initialise them. *)
Definition ec_readMapBegin : MT (Z * Z * Z) :=
  len <- cread_varint 5 4 0 0 ;;
  checkLengthLimit len (as_limit container_limit) ;;;
  if negb (len =? 0) then
    kv <- readU8 ;;
    ktype <- getTType (Z.shiftr kv 4) ;;
    vtype <- getTType (Z.land kv 15) ;;
    ret (ktype, vtype, sN 4 len)
  else ret (T_STOP, T_STOP, sN 4 len).
(** 233-240 *)
Definition ec_readStructBegin : MT unit :=
  x <- get_px ;; set_px (mkcrd (0 :: tags x) (rbool x)).
Definition ec_readStructEnd (s : st crd) : st crd :=
  mkst (mkcrd (tl (tags (px s))) (rbool (px s))) (inp s) (out s) (depth s).
(** compact.cpp 49-75.  The id is an int16_t: the sum wraps.  The assignment
    [readTags_.top() = -1] on the failure path is left out: the decoder object
    is thrown away. *)
Definition ec_readFieldBegin : MT (Z * Z) :=
  b <- readU8 ;;
  let ctype := Z.land b 15 in
  type <- getTType ctype ;;
  if type =? T_STOP then ret (type, 0)
  else
    let diff := Z.shiftr (Z.land b 240) 4 in
    x <- get_px ;;
    tag <- (if negb (diff =? 0) then ret (sN 2 (hd 0 (tags x) + diff))
            else ec_readI16) ;;
    set_px (mkcrd (tag :: tl (tags x))
              (if (ctype =? 2) || (ctype =? 1) then Some (ctype =? 1)
               else rbool x)) ;;;
    ret (type, tag).
(** 275-281: no limit is checked; the length goes through an int parameter. *)
Definition ec_skipString : MT unit :=
  len <- cread_varint 5 4 0 0 ;; SKIPBYTES (sN 4 len).

Definition dcompact : dimpl crd := {|
  d_readBool := ec_readBool;
  d_readI8 := ec_readI8;
  d_readI16 := ec_readI16;
  d_readI32 := ec_readI32;
  d_readI64 := ec_readI64;
  d_readDouble := ec_readDouble;
  d_readString := ec_readString;
  d_readUuid := ec_readUuid;
  d_readListBegin := ec_readListBegin;
  d_readMapBegin := ec_readMapBegin;
  d_readStructBegin := ec_readStructBegin;
  d_readStructEnd := ec_readStructEnd;
  d_readFieldBegin := ec_readFieldBegin;
  d_skipBool := ec_readBool ;;; ret tt;      (* 250-253 *)
  d_skipByte := SKIPBYTES 1;                 (* 261-262 *)
  d_skipI16 := ec_readI16 ;;; ret tt;        (* 263-274 *)
  d_skipI32 := ec_readI32 ;;; ret tt;
  d_skipI64 := ec_readI64 ;;; ret tt;
  d_skipDouble := SKIPBYTES 8;
  d_skipString := ec_skipString;
  d_skipUuid := SKIPBYTES 16 |}.
End Compact.

(** A new CompactProtocol object. *)
Definition crd_init : crd := mkcrd [] None.
