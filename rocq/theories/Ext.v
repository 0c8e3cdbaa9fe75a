(** The C encoder of the accelerated protocols (lib/py/src/ext), Python 3
    branches.  No proofs here.

    C integers are [Z]; every conversion to a fixed width is explicit
    ([uN]/[sN], two's complement).  A C function that returns false with a
    Python exception set is [Raise].  [malloc] does not fail: [writeBuffer]
    (protocol.tcc 171-184) always appends.  The byte order of the machine is a
    parameter. *)
From Coq Require Import ZArith List Bool.
From Coq Require Import Init.Byte.
From Verif Require Import Base Bytes Utf8 Proto Dynamic.
Import ListNotations.
Open Scope Z_scope.

(** * Machine integers *)

(** Conversion to uint8_t ... uint64_t for [n] = 1, 2, 4, 8 bytes. *)
Definition uN (n : nat) (z : Z) : Z := z mod 2 ^ (8 * Z.of_nat n).
(** Conversion to int8_t ... int64_t. *)
Definition sN (n : nat) (z : Z) : Z := to_signed n (uN n z).

(** The bytes of an [n]-byte object in memory: what
    [reinterpret_cast<char*>(&val)] points at. *)
Definition in_memory (big : bool) (n : nat) (z : Z) : list byte :=
  if big then be_bytes n (uN n z) else le_bytes n (uN n z).

(** [htons]/[htonl]: the integer whose memory image is the big-endian form. *)
Definition hton (big : bool) (n : nat) (z : Z) : Z :=
  if big then uN n z else le_val (rev (le_bytes n (uN n z))).

(** htonll (endian.h 33-51): the shifts and ors build the number whose
    most significant byte is the first one in memory. *)
Definition htonll (big : bool) (z : Z) : Z := be_val (in_memory big 8 z).

(** htolell (endian.h 55-70): the first byte in memory is the least
    significant one. *)
Definition htolell (big : bool) (z : Z) : Z := le_val (in_memory big 8 z).

(** * What an implementation class offers to ProtocolBase (protocol.h 71-397)

    [X] is the implementation's own state.  [writeField] gets the encoder of
    the field's value as an argument; [c_writeString] is given the bytes and
    their number. *)
Record cimpl (X : Type) := mkcimpl {
  c_writeBool : bool -> M X unit;
  c_writeI8 : Z -> M X unit;
  c_writeI16 : Z -> M X unit;
  c_writeI32 : Z -> M X unit;
  c_writeI64 : Z -> M X unit;
  c_writeDouble : Z -> M X unit;
  c_writeString : list byte -> Z -> M X unit;
  c_writeUuid : list byte -> M X unit;
  c_writeListBegin : Z -> Z -> M X unit;
  c_writeMapBegin : Z -> Z -> Z -> M X unit;
  c_writeStructBegin : M X unit;
  c_writeStructEnd : st X -> st X;
  c_writeField : value -> Z -> Z -> M X unit -> M X unit;
  c_writeFieldStop : M X unit }.
Arguments c_writeBool {X} c.        Arguments c_writeI8 {X} c.
Arguments c_writeI16 {X} c.         Arguments c_writeI32 {X} c.
Arguments c_writeI64 {X} c.         Arguments c_writeDouble {X} c.
Arguments c_writeString {X} c.      Arguments c_writeUuid {X} c.
Arguments c_writeListBegin {X} c.   Arguments c_writeMapBegin {X} c.
Arguments c_writeStructBegin {X} c. Arguments c_writeStructEnd {X} c.
Arguments c_writeField {X} c.       Arguments c_writeFieldStop {X} c.

(** PyObject_IsTrue on the objects of the model. *)
Definition truth (v : value) : bool :=
  match v with
  | VBool b => b
  | VInt z => negb (z =? 0)
  | VDouble d => negb (dbl_zero d)
  | VStr s => negb (length s =? 0)%nat
  | VBin b => negb (length b =? 0)%nat
  | VList l | VSet l => negb (length l =? 0)%nat
  | VMap l => negb (length l =? 0)%nat
  | VUuid _ | VStruct _ _ => true
  end.

Section Encoder.
Context {X : Type}.
Variable I : cimpl X.

(** writeByte (protocol.h 75): the argument is converted to uint8_t. *)
Definition wbyte (z : Z) : M X unit := twrite [z2b (uN 1 z)].

(** PyLong_AsLong, PyLong_AsLongLong on a 64-bit machine. *)
Definition as_int64 (v : value) : M X Z :=
  match v with
  | VInt z => if (-9223372036854775808 <=? z) && (z <=? 9223372036854775807)
              then ret z else raise EOverflow
  | VBool b => ret (if b then 1 else 0)
  | _ => raise ETypeError
  end.

(** parse_pyint (protocol.tcc 235-249) *)
Definition parse_pyint (n : nat) (lo hi : Z) (v : value) : M X Z :=
  val <- as_int64 v ;;
  if (val <=? hi) && (lo <=? val) then ret (sN n val) else raise EOverflow.

(** check_ssize_t_32 (protocol.tcc 222-232) *)
Definition check_ssize_t_32 (len : Z) : M X unit :=
  if (len <=? 2147483647) && (0 <=? len) then ret tt else raise EOverflow.

(** encodeValue for the types other than containers and structs (protocol.tcc
    389-491, 601-618).  A [str] or a [bytes] object is accepted for both
    string types.  PyFloat_AsDouble of an int is not modelled (TypeError here,
    a conversion there). *)
Definition encode_base (t : ty) (v : value) : M X unit :=
  match t with
  | TBool => c_writeBool I (truth v)
  | TByte => z <- parse_pyint 1 (-128) 127 v ;; c_writeI8 I z
  | TI16 => z <- parse_pyint 2 (-32768) 32767 v ;; c_writeI16 I z
  | TI32 => z <- parse_pyint 4 (-2147483648) 2147483647 v ;; c_writeI32 I z
  | TI64 => z <- as_int64 v ;; c_writeI64 I z
  | TDouble =>
      match v with VDouble d => c_writeDouble I d | _ => raise ETypeError end
  | TString | TBinary =>
      match v with
      | VStr s =>
          match utf8_encode s with
          | None => raise EUnicodeEncode
          | Some b =>
              check_ssize_t_32 (Z.of_nat (length b)) ;;;
              c_writeString I b (sN 4 (Z.of_nat (length b)))
          end
      | VBin b =>
          check_ssize_t_32 (Z.of_nat (length b)) ;;;
          c_writeString I b (sN 4 (Z.of_nat (length b)))
      | _ => raise ETypeError
      end
  | TUuid =>
      match v with
      | VUuid b =>
          if Z.of_nat (length b) =? 16 then c_writeUuid I b
          else raise ETypeError
      | _ => raise EAttributeError
      end
  | _ => raise ETypeError
  end.

(** checkDepthLimit and the RecursionGuard around a struct (protocol.tcc
    210-220, 273-296, 556-559); kDefaultRecursionDepth is 64 (protocol.h
    67). *)
Definition recursion_guard {A} (m : M X A) : M X A :=
  fun s =>
    if depth s + 1 >? 64
    then (Raise (EProtocol TP_DEPTH_LIMIT), s)
    else try_finally m (fun s => mkst (px s) (inp s) (out s) (depth s - 1))
           (mkst (px s) (inp s) (out s) (depth s + 1)).

(** WriteStructScope (protocol.tcc 190-206, 567-570): writeStructEnd runs when
    the scope is left, also on failure. *)
Definition struct_scope {A} (m : M X A) : M X A :=
  c_writeStructBegin I ;;; try_finally m (c_writeStructEnd I).

(** The loop over the field table (protocol.tcc 571-596).  [ws] holds, per
    attribute, its value and what encodes it; PyObject_GetAttr of a missing
    attribute raises AttributeError. *)
Fixpoint encode_fields (ws : list (option (value * (ty -> M X unit))))
    (spec : list (option (nat * fielddef))) : M X unit :=
  match spec with
  | [] => ret tt
  | None :: r => encode_fields ws r
  | Some (i, d) :: r =>
      match nth_error ws i with
      | None => raise EAttributeError
      | Some None => encode_fields ws r
      | Some (Some (v, w)) =>
          c_writeField I v (code (f_ty d)) (f_id d) (w (f_ty d)) ;;;
          encode_fields ws r
      end
  end.

Variable env : schema.

(** encodeValue (protocol.tcc 375-629).  The type, with its spec arguments, is
    the declared one; the table of a struct is that of the declared class, and
    the attributes are looked up by name in the object: an object of another
    class is refused here (there it would be used if it has the attributes).
    A list is iterated for a list, a set for a set, a dict for a map; other
    iterables are refused here. *)
Fixpoint encodeValue (t : ty) (v : value) {struct v} : M X unit :=
  match t, v with
  | TList et, VList l | TSet et, VSet l =>
      check_ssize_t_32 (Z.of_nat (length l)) ;;;
      c_writeListBegin I (code et) (sN 4 (Z.of_nat (length l))) ;;;
      mapM_ (encodeValue et) l
  | TMap kt vt, VMap l =>
      check_ssize_t_32 (Z.of_nat (length l)) ;;;
      c_writeMapBegin I (code kt) (code vt) (sN 4 (Z.of_nat (length l))) ;;;
      mapM_ (fun kv => match kv with
                       | (k, x) => encodeValue kt k ;;; encodeValue vt x
                       end) l
  | TStruct n, VStruct m fs =>
      if negb (n =? m)%nat then raise EAttributeError
      else
      match nth_error env n with
      | None => raise ETypeError
      | Some ds =>
          recursion_guard (struct_scope (
            encode_fields
              (map (fun f => match f with
                             | Some x => Some (x, fun t' => encodeValue t' x)
                             | None => None
                             end) fs) (thrift_spec ds) ;;;
            c_writeFieldStop I))
      end
  | _, _ => encode_base t v
  end.

End Encoder.

(** encode_impl (module.cpp 52-71): a new encoder object, its buffer.  [x0] is
    the state its constructor sets up. *)
Definition encode_impl {X} (I : cimpl X) (x0 : X) (env : schema) (n : nat)
    (v : value) : outcome (list byte) :=
  match encodeValue I env (TStruct n) v (mkst x0 [] [] 0) with
  | (Ok _, s) => Ok (out s)
  | (Raise e, _) => Raise e
  | (Diverge, _) => Diverge
  end.

(** The generated [write] with an accelerated protocol (t_py_generator.cc
    1214-1223): validate, then [trans.write(_fast_encode(...))].  The test
    [self.thrift_spec is not None] succeeds: the table is a tuple, possibly
    empty. *)
Definition fast_serialize {X} (I : cimpl X) (x0 : X) (env : schema) (n : nat)
    (v : value) : outcome (list byte) :=
  match v with
  | VStruct m fs =>
      match nth_error env m with
      | None => Raise EAttributeError
      | Some ds =>
          if validate ds fs then encode_impl I x0 env m v
          else Raise (EProtocol TP_UNKNOWN)
      end
  | _ => Raise ETypeError
  end.

(** * BinaryProtocol (ext/binary.h) *)

Section Binary.
Variable big : bool.
Notation MB := (M unit).

(** 36 *)
Definition eb_writeI8 (z : Z) : MB unit := twrite (in_memory big 1 z).
(** 38-41 *)
Definition eb_writeI16 (z : Z) : MB unit := twrite (in_memory big 2 (hton big 2 z)).
(** 43-46 *)
Definition eb_writeI32 (z : Z) : MB unit := twrite (in_memory big 4 (hton big 4 z)).
(** 48-51 *)
Definition eb_writeI64 (z : Z) : MB unit := twrite (in_memory big 8 (htonll big z)).
(** 53-61: the union reinterprets the 64 bits. *)
Definition eb_writeDouble (bits : Z) : MB unit := eb_writeI64 (sN 8 bits).
(** 63; the argument is 0 or 1. *)
Definition eb_writeBool (b : bool) : MB unit := wbyte (if b then 1 else 0).
(** 65-73 *)
Definition eb_writeString (s : list byte) (len : Z) : MB unit :=
  eb_writeI32 len ;;; twrite (firstn (Z.to_nat len) s).
(** 75-79 *)
Definition eb_writeListBegin (etype len : Z) : MB unit :=
  wbyte etype ;;; eb_writeI32 len.
(** 81-86 *)
Definition eb_writeMapBegin (ktag vtag len : Z) : MB unit :=
  wbyte ktag ;;; wbyte vtag ;;; eb_writeI32 len.
(** 90-94: the id goes through an int16_t parameter. *)
Definition eb_writeField (v : value) (type tag : Z) (enc : MB unit) : MB unit :=
  wbyte type ;;; eb_writeI16 (sN 2 tag) ;;; enc.
(** 96-98 *)
Definition eb_writeUuid (b : list byte) : MB unit := twrite (firstn 16 b).
(** 100 *)
Definition eb_writeFieldStop : MB unit := wbyte T_STOP.

Definition cbinary : cimpl unit := {|
  c_writeBool := eb_writeBool;
  c_writeI8 := eb_writeI8;
  c_writeI16 := eb_writeI16;
  c_writeI32 := eb_writeI32;
  c_writeI64 := eb_writeI64;
  c_writeDouble := eb_writeDouble;
  c_writeString := eb_writeString;
  c_writeUuid := eb_writeUuid;
  c_writeListBegin := eb_writeListBegin;
  c_writeMapBegin := eb_writeMapBegin;
  c_writeStructBegin := ret tt;              (* 88 *)
  c_writeStructEnd := fun s => s;            (* 89 *)
  c_writeField := eb_writeField;
  c_writeFieldStop := eb_writeFieldStop |}.
End Binary.

(** * CompactProtocol (ext/compact.h, ext/compact.cpp)

    The state is [writeTags_], top first. *)

Section Compact.
Variable big : bool.
Notation MT := (M (list Z)).

(** TTypeToCType (compact.cpp 29-47) and toCompactType (compact.h 309-312);
    out of the table it is -1. *)
Definition TTypeToCType : list Z :=
  [0; 0; 1; 3; 7; 0; 4; 0; 5; 0; 6; 8; 12; 11; 10; 9; 13].
Definition toCompactType (t : Z) : Z :=
  if t <=? 16 then nth (Z.to_nat t) TTypeToCType 0 else -1.

(** toZigZag (compact.h 314), toZigZag64 (316): int32_t/int64_t arithmetic,
    the result converted to unsigned.  The left shift of a negative number
    wraps, as gcc and clang have it. *)
Definition toZigZag (z : Z) : Z := uN 4 (Z.lxor (Z.shiftr z 31) (sN 4 (Z.shiftl z 1))).
Definition toZigZag64 (z : Z) : Z := uN 8 (Z.lxor (Z.shiftr z 63) (sN 8 (Z.shiftl z 1))).

(** The loop of writeVarint (318-327) and writeVarint64 (329-338).  [mask] is
    [~0x7fU] at the width in question.  Fuel: one unit per byte. *)
Fixpoint cvarint_loop (fuel : nat) (mask val : Z) : MT unit :=
  match fuel with
  | O => diverge
  | S f =>
      if Z.land val mask =? 0 then wbyte val
      else wbyte (Z.lor (Z.land val 127) 128) ;;;
           cvarint_loop f mask (Z.shiftr val 7)
  end.

Definition writeVarint32 (z : Z) : MT unit :=
  cvarint_loop 64 (2 ^ 32 - 128) (uN 4 z).
Definition writeVarint64 (z : Z) : MT unit :=
  cvarint_loop 64 (2 ^ 64 - 128) (uN 8 z).

(** 39-45 *)
Definition ec_writeI8 (z : Z) : MT unit := twrite (in_memory big 1 z).
Definition ec_writeI16 (z : Z) : MT unit := writeVarint32 (toZigZag z).
Definition ec_writeI32 (z : Z) : MT unit := writeVarint32 (toZigZag z).
Definition ec_writeI64 (z : Z) : MT unit := writeVarint64 (toZigZag64 z).
(** 47-55 *)
Definition ec_writeDouble (bits : Z) : MT unit :=
  twrite (in_memory big 8 (htolell big (sN 8 bits))).
(** 57 *)
Definition ec_writeBool (b : bool) : MT unit := wbyte (if b then 1 else 2).
(** 59-67 *)
Definition ec_writeString (s : list byte) (len : Z) : MT unit :=
  writeVarint32 len ;;; twrite (firstn (Z.to_nat len) s).
(** 69-78 *)
Definition ec_writeListBegin (etype len : Z) : MT unit :=
  let ctype := toCompactType etype in
  if len <=? 14 then wbyte (Z.lor (Z.shiftl len 4) ctype)
  else wbyte (Z.lor 240 ctype) ;;; writeVarint32 len.
(** 80-89 *)
Definition ec_writeMapBegin (ktag vtag len : Z) : MT unit :=
  if len =? 0 then wbyte 0
  else
    let ctype := Z.lor (Z.shiftl (toCompactType ktag) 4) (toCompactType vtag) in
    writeVarint32 len ;;; wbyte ctype.
(** 91-94 *)
Definition ec_writeStructBegin : MT unit := x <- get_px ;; set_px (0 :: x).
(** 95-98 *)
Definition ec_writeStructEnd (s : st (list Z)) : st (list Z) :=
  mkst (tl (px s)) (inp s) (out s) (depth s).
(** doWriteFieldBegin, 367-376 *)
Definition doWriteFieldBegin (tag ctype : Z) : MT unit :=
  x <- get_px ;;
  let diff := tag - hd 0 x in
  (if (0 <? diff) && (diff <=? 15)
   then wbyte (Z.lor (Z.shiftl diff 4) ctype)
   else wbyte ctype ;;; ec_writeI16 (sN 2 tag)) ;;;
  set_px (tag :: tl x).
(** 100-108 *)
Definition ec_writeField (v : value) (type tag : Z) (enc : MT unit) : MT unit :=
  if type =? T_BOOL then doWriteFieldBegin tag (if truth v then 1 else 2)
  else doWriteFieldBegin tag (toCompactType type) ;;; enc.
(** 110 *)
Definition ec_writeFieldStop : MT unit := wbyte 0.
(** 112-114 *)
Definition ec_writeUuid (b : list byte) : MT unit := twrite (firstn 16 b).

Definition ccompact : cimpl (list Z) := {|
  c_writeBool := ec_writeBool;
  c_writeI8 := ec_writeI8;
  c_writeI16 := ec_writeI16;
  c_writeI32 := ec_writeI32;
  c_writeI64 := ec_writeI64;
  c_writeDouble := ec_writeDouble;
  c_writeString := ec_writeString;
  c_writeUuid := ec_writeUuid;
  c_writeListBegin := ec_writeListBegin;
  c_writeMapBegin := ec_writeMapBegin;
  c_writeStructBegin := ec_writeStructBegin;
  c_writeStructEnd := ec_writeStructEnd;
  c_writeField := ec_writeField;
  c_writeFieldStop := ec_writeFieldStop |}.
End Compact.
