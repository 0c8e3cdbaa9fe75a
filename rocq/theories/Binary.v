(** TBinaryProtocol (lib/py/src/protocol/TBinaryProtocol.py).  No proofs
    here.  The protocol object has no attributes that change, so its state is
    [unit]; the constructor arguments are parameters. *)
From Coq Require Import ZArith List Bool.
From Coq Require Import Init.Byte.
From Verif Require Import Base Bytes Utf8 Proto.
Import ListNotations.
Open Scope Z_scope.

(** Constructor arguments, TBinaryProtocol.py 41-46. *)
Record bconf := mkbconf {
  strictRead : bool;
  strictWrite : bool;
  string_length_limit : option Z;
  container_length_limit : option Z }.

(** The defaults of the constructor. *)
Definition bdefault : bconf := mkbconf false true None None.

(** TBinaryProtocol.py 33-39. *)
Definition B_VERSION_MASK := -65536.
Definition B_VERSION_1 := -2147418112.
Definition B_TYPE_MASK := 255.

Section Binary.
Variable cf : bconf.
Notation MB := (M unit).

(** 111-113 *)
Definition b_writeByte (z : Z) : MB unit :=
  buff <- pack_signed 1 z ;; twrite buff.
(** 115-117 *)
Definition b_writeI16 (z : Z) : MB unit :=
  buff <- pack_signed 2 z ;; twrite buff.
(** 119-121 *)
Definition b_writeI32 (z : Z) : MB unit :=
  buff <- pack_signed 4 z ;; twrite buff.
(** 123-125 *)
Definition b_writeI64 (z : Z) : MB unit :=
  buff <- pack_signed 8 z ;; twrite buff.
(** 127-129: [pack("!d", dub)], the IEEE pattern big-endian. *)
Definition b_writeDouble (bits : Z) : MB unit := twrite (be_bytes 8 bits).
(** 105-109 *)
Definition b_writeBool (b : bool) : MB unit :=
  if b then b_writeByte 1 else b_writeByte 0.
(** 131-133 *)
Definition b_writeBinary (s : list byte) : MB unit :=
  b_writeI32 (Z.of_nat (length s)) ;;; twrite s.
(** TProtocol.py 130-131 *)
Definition b_writeString (s : list Z) : MB unit :=
  b <- encode_utf8 s ;; b_writeBinary b.
(** 135-136: [uuid.bytes] is the 16-byte big-endian form. *)
Definition b_writeUuid (u : list byte) : MB unit := twrite u.

(** 54-62.  [VERSION_1 | type] is Python's unbounded bitwise or. *)
Definition b_writeMessageBegin (name : list Z) (type seqid : Z) : MB unit :=
  if strictWrite cf then
    b_writeI32 (Z.lor B_VERSION_1 type) ;;;
    b_writeString name ;;;
    b_writeI32 seqid
  else
    b_writeString name ;;;
    b_writeByte type ;;;
    b_writeI32 seqid.

(** 73-75 *)
Definition b_writeFieldBegin (type id : Z) : MB unit :=
  b_writeByte type ;;; b_writeI16 id.
(** 80-81 *)
Definition b_writeFieldStop : MB unit := b_writeByte T_STOP.
(** 83-86 *)
Definition b_writeMapBegin (ktype vtype size : Z) : MB unit :=
  b_writeByte ktype ;;; b_writeByte vtype ;;; b_writeI32 size.
(** 91-93 *)
Definition b_writeListBegin (etype size : Z) : MB unit :=
  b_writeByte etype ;;; b_writeI32 size.
(** 98-100 *)
Definition b_writeSetBegin (etype size : Z) : MB unit :=
  b_writeByte etype ;;; b_writeI32 size.

(** 211-214 *)
Definition b_readByte : MB Z :=
  buff <- readAll 1 ;; ret (unpack_signed 1 buff).
(** 216-219 *)
Definition b_readI16 : MB Z :=
  buff <- readAll 2 ;; ret (unpack_signed 2 buff).
(** 221-224 *)
Definition b_readI32 : MB Z :=
  buff <- readAll 4 ;; ret (unpack_signed 4 buff).
(** 226-229 *)
Definition b_readI64 : MB Z :=
  buff <- readAll 8 ;; ret (unpack_signed 8 buff).
(** 231-234 *)
Definition b_readDouble : MB Z :=
  buff <- readAll 8 ;; ret (be_val buff).
(** 205-209 *)
Definition b_readBool : MB bool :=
  b <- b_readByte ;; if b =? 0 then ret false else ret true.
(** 236-240, with _check_string_length 48-49 *)
Definition b_readBinary : MB (list byte) :=
  size <- b_readI32 ;;
  check_length (string_length_limit cf) size ;;;
  readAll size.
(** TProtocol.py 193-194 *)
Definition b_readString : MB (list Z) :=
  b <- b_readBinary ;; decode_utf8 b.
(** 242-245 *)
Definition b_readUuid : MB (list byte) := readAll 16.

(** 138-156 *)
Definition b_readMessageBegin : MB (list Z * Z * Z) :=
  sz <- b_readI32 ;;
  if sz <? 0 then
    if negb (Z.land sz B_VERSION_MASK =? B_VERSION_1)
    then raise (EProtocol TP_BAD_VERSION)
    else
      name <- b_readString ;;
      seqid <- b_readI32 ;;
      ret (name, Z.land sz B_TYPE_MASK, seqid)
  else
    if strictRead cf then raise (EProtocol TP_BAD_VERSION)
    else
      b <- readAll sz ;;
      name <- decode_utf8 b ;;
      type <- b_readByte ;;
      seqid <- b_readI32 ;;
      ret (name, type, seqid).

(** 167-172 *)
Definition b_readFieldBegin : MB (Z * Z) :=
  type <- b_readByte ;;
  if type =? T_STOP then ret (type, 0)
  else id <- b_readI16 ;; ret (type, id).
(** 177-182, with _check_container_length 51-52 *)
Definition b_readMapBegin : MB (Z * Z * Z) :=
  ktype <- b_readByte ;;
  vtype <- b_readByte ;;
  size <- b_readI32 ;;
  check_length (container_length_limit cf) size ;;;
  ret (ktype, vtype, size).
(** 187-191 *)
Definition b_readListBegin : MB (Z * Z) :=
  etype <- b_readByte ;;
  size <- b_readI32 ;;
  check_length (container_length_limit cf) size ;;;
  ret (etype, size).
(** 196-200 *)
Definition b_readSetBegin : MB (Z * Z) :=
  etype <- b_readByte ;;
  size <- b_readI32 ;;
  check_length (container_length_limit cf) size ;;;
  ret (etype, size).

(** The methods whose body is [pass]: 64-71, 77-78, 88-89, 95-96, 102-103,
    158-165, 174-175, 184-185, 193-194, 202-203. *)
Definition b_pass : MB unit := ret tt.

Definition binary : proto unit := {|
  writeMessageBegin := b_writeMessageBegin;
  writeMessageEnd := b_pass;
  writeStructBegin := b_pass;
  writeStructEnd := b_pass;
  writeFieldBegin := b_writeFieldBegin;
  writeFieldEnd := b_pass;
  writeFieldStop := b_writeFieldStop;
  writeMapBegin := b_writeMapBegin;
  writeMapEnd := b_pass;
  writeListBegin := b_writeListBegin;
  writeListEnd := b_pass;
  writeSetBegin := b_writeSetBegin;
  writeSetEnd := b_pass;
  writeBool := b_writeBool;
  writeByte := b_writeByte;
  writeI16 := b_writeI16;
  writeI32 := b_writeI32;
  writeI64 := b_writeI64;
  writeDouble := b_writeDouble;
  writeString := b_writeString;
  writeBinary := b_writeBinary;
  writeUuid := b_writeUuid;
  readMessageBegin := b_readMessageBegin;
  readMessageEnd := b_pass;
  readStructBegin := b_pass;
  readStructEnd := b_pass;
  readFieldBegin := b_readFieldBegin;
  readFieldEnd := b_pass;
  readMapBegin := b_readMapBegin;
  readMapEnd := b_pass;
  readListBegin := b_readListBegin;
  readListEnd := b_pass;
  readSetBegin := b_readSetBegin;
  readSetEnd := b_pass;
  readBool := b_readBool;
  readByte := b_readByte;
  readI16 := b_readI16;
  readI32 := b_readI32;
  readI64 := b_readI64;
  readDouble := b_readDouble;
  readString := b_readString;
  readBinary := b_readBinary;
  readUuid := b_readUuid |}.

End Binary.
