(** TCompactProtocol (lib/py/src/protocol/TCompactProtocol.py).  No proofs
    here. *)
From Coq Require Import ZArith List Bool.
From Coq Require Import Init.Byte.
From Verif Require Import Base Bytes Utf8 Proto.
Import ListNotations.
Open Scope Z_scope.

(** The state constants, TCompactProtocol.py 26-34. *)
Inductive cstate :=
| CLEAR | FIELD_WRITE | VALUE_WRITE | CONTAINER_WRITE | BOOL_WRITE
| FIELD_READ | CONTAINER_READ | VALUE_READ | BOOL_READ.

Definition cstate_eqb (a b : cstate) : bool :=
  match a, b with
  | CLEAR, CLEAR | FIELD_WRITE, FIELD_WRITE | VALUE_WRITE, VALUE_WRITE
  | CONTAINER_WRITE, CONTAINER_WRITE | BOOL_WRITE, BOOL_WRITE
  | FIELD_READ, FIELD_READ | CONTAINER_READ, CONTAINER_READ
  | VALUE_READ, VALUE_READ | BOOL_READ, BOOL_READ => true
  | _, _ => false
  end.

(** Attributes of the protocol object, 141-152.  The stacks have their top
    first. *)
Record cst := mkcst {
  state : cstate;
  last_fid : Z;
  bool_fid : option Z;
  bool_value : option bool;
  structs : list (cstate * Z);
  containers : list cstate }.

(** A new protocol object, 145-150. *)
Definition c_init : cst := mkcst CLEAR 0 None None [] [].

Record cconf := mkcconf {
  c_string_length_limit : option Z;
  c_container_length_limit : option Z }.

Definition cdefault : cconf := mkcconf None None.

Definition set_state (s : cstate) (x : cst) : cst :=
  mkcst s (last_fid x) (bool_fid x) (bool_value x) (structs x) (containers x).
Definition set_last_fid (z : Z) (x : cst) : cst :=
  mkcst (state x) z (bool_fid x) (bool_value x) (structs x) (containers x).
Definition set_bool_fid (z : Z) (x : cst) : cst :=
  mkcst (state x) (last_fid x) (Some z) (bool_value x) (structs x)
        (containers x).
Definition set_bool_value (b : bool) (x : cst) : cst :=
  mkcst (state x) (last_fid x) (bool_fid x) (Some b) (structs x)
        (containers x).
Definition set_structs (l : list (cstate * Z)) (x : cst) : cst :=
  mkcst (state x) (last_fid x) (bool_fid x) (bool_value x) l (containers x).
Definition set_containers (l : list cstate) (x : cst) : cst :=
  mkcst (state x) (last_fid x) (bool_fid x) (bool_value x) (structs x) l.

Notation MC := (M cst).

Definition upd (f : cst -> cst) : MC unit :=
  x <- get_px ;; set_px (f x).

(** [assert self.state in (...)] *)
Definition assert_state (l : list cstate) : MC unit :=
  x <- get_px ;; assert_ (existsb (cstate_eqb (state x)) l).

(** checkIntegerLimits, TProtocol.py 419-431, for bits in 8, 16, 32, 64. *)
Definition checkIntegerLimits {S} (i bits : Z) : SM S unit :=
  if (i <? - 2 ^ (bits - 1)) || (2 ^ (bits - 1) - 1 <? i)
  then raise (EProtocol TP_INVALID_DATA) else ret tt.

(** makeZigZag, 50-52. *)
Definition makeZigZag {S} (n bits : Z) : SM S Z :=
  checkIntegerLimits n bits ;;;
  ret (Z.lxor (Z.shiftl n 1) (Z.shiftr n (bits - 1))).

(** fromZigZag, 55-56. *)
Definition fromZigZag (n : Z) : Z :=
  Z.lxor (Z.shiftr n 1) (- Z.land n 1).

(** The loop of writeVarint, 61-68.  Fuel: one unit per byte. *)
Fixpoint varint_loop (fuel : nat) (n : Z) (acc : list byte)
  : option (list byte) :=
  match fuel with
  | O => None
  | S f =>
      if Z.land n (Z.lnot 127) =? 0 then Some (acc ++ [z2b n])
      else varint_loop f (Z.shiftr n 7)
             (acc ++ [z2b (Z.lor (Z.land n 255) 128)])
  end.

(** Enough fuel for a non-negative [n] (shown in CompactFacts.v). *)
Definition varint_fuel (n : Z) : nat := S (Z.to_nat (Z.log2 n)).

(** writeVarint, 59-69. *)
Definition writeVarint {X} (n : Z) : M X unit :=
  assert_ (0 <=? n) ;;;
  match varint_loop (varint_fuel n) n [] with
  | Some l => twrite l
  | None => diverge
  end.

(** The loop of readVarint, 78-86: [k] iterations are left of the ten. *)
Fixpoint readVarint_loop {X} (k : nat) (result shift : Z) : M X Z :=
  match k with
  | O => raise (EProtocol TP_INVALID_DATA)
  | S k' =>
      x <- readAll 1 ;;
      let byte := be_val x in
      let result' := Z.lor result (Z.shiftl (Z.land byte 127) shift) in
      if Z.shiftr byte 7 =? 0 then ret result'
      else readVarint_loop k' result' (shift + 7)
  end.

(** readVarint, 72-86. *)
Definition readVarint {X} : M X Z := readVarint_loop 10 0 0.

(** CompactType, 90-104. *)
Definition CT_TRUE := 1.
Definition CT_FALSE := 2.

(** CTYPES, 107-121: [None] is KeyError. *)
Definition CTYPES (t : Z) : option Z :=
  if t =? T_STOP then Some 0
  else if t =? T_BOOL then Some 1
  else if t =? T_BYTE then Some 3
  else if t =? T_I16 then Some 4
  else if t =? T_I32 then Some 5
  else if t =? T_I64 then Some 6
  else if t =? T_DOUBLE then Some 7
  else if t =? T_STRING then Some 8
  else if t =? T_STRUCT then Some 12
  else if t =? T_LIST then Some 9
  else if t =? T_SET then Some 10
  else if t =? T_MAP then Some 11
  else if t =? T_UUID then Some 13
  else None.

(** TTYPES, 123-126: the inverse table, with FALSE also meaning BOOL. *)
Definition TTYPES (c : Z) : option Z :=
  if c =? 0 then Some T_STOP
  else if c =? 1 then Some T_BOOL
  else if c =? 2 then Some T_BOOL
  else if c =? 3 then Some T_BYTE
  else if c =? 4 then Some T_I16
  else if c =? 5 then Some T_I32
  else if c =? 6 then Some T_I64
  else if c =? 7 then Some T_DOUBLE
  else if c =? 8 then Some T_STRING
  else if c =? 9 then Some T_LIST
  else if c =? 10 then Some T_SET
  else if c =? 11 then Some T_MAP
  else if c =? 12 then Some T_STRUCT
  else if c =? 13 then Some T_UUID
  else None.

Definition lookup_ctype (t : Z) : MC Z :=
  match CTYPES t with Some c => ret c | None => raise EKeyError end.

(** __getTType, 444-445. *)
Definition getTType (b : Z) : MC Z :=
  match TTYPES (Z.land b 15) with Some t => ret t | None => raise EKeyError end.

(** 134-139 *)
Definition C_PROTOCOL_ID := 130.
Definition C_VERSION := 1.
Definition C_VERSION_MASK := 31.
Definition C_TYPE_BITS := 7.
Definition C_TYPE_SHIFT := 5.

Section Compact.
Variable cf : cconf.

(** __writeUByte 217-218, __writeByte 220-221 *)
Definition c_writeUByte (z : Z) : MC unit :=
  b <- pack_unsigned 1 z ;; twrite b.
Definition c_writeByte_ (z : Z) : MC unit :=
  b <- pack_signed 1 z ;; twrite b.
(** __writeI16 223-224 *)
Definition c_writeI16_ (z : Z) : MC unit :=
  n <- makeZigZag z 16 ;; writeVarint n.
(** __writeBinary 292-294, __writeSize 226-227 *)
Definition c_writeBinary_ (s : list byte) : MC unit :=
  writeVarint (Z.of_nat (length s)) ;;; twrite s.

(** writeMessageBegin, 163-176 *)
Definition c_writeMessageBegin (name : list Z) (type seqid : Z) : MC unit :=
  assert_state [CLEAR] ;;;
  c_writeUByte C_PROTOCOL_ID ;;;
  c_writeUByte (Z.lor C_VERSION (Z.shiftl type C_TYPE_SHIFT)) ;;;
  writeVarint (if seqid <? 0 then 2147483648 + (2147483648 + seqid)
               else seqid) ;;;
  b <- encode_utf8 name ;;
  c_writeBinary_ b ;;;
  upd (set_state VALUE_WRITE).

(** writeMessageEnd, 178-180 *)
Definition c_writeMessageEnd : MC unit :=
  assert_state [VALUE_WRITE] ;;; upd (set_state CLEAR).

(** writeStructBegin, 182-186 *)
Definition c_writeStructBegin : MC unit :=
  assert_state [CLEAR; CONTAINER_WRITE; VALUE_WRITE] ;;;
  upd (fun x => set_structs ((state x, last_fid x) :: structs x) x) ;;;
  upd (set_state FIELD_WRITE) ;;;
  upd (set_last_fid 0).

(** [self.state, self.__last_fid = self.__structs.pop()]: IndexError when
    empty. *)
Definition pop_struct : MC unit :=
  x <- get_px ;;
  match structs x with
  | [] => raise EIndexError
  | (s, f) :: r =>
      set_px (set_structs r (set_state s (set_last_fid f x)))
  end.

(** [self.state = self.__containers.pop()] *)
Definition pop_container : MC unit :=
  x <- get_px ;;
  match containers x with
  | [] => raise EIndexError
  | s :: r => set_px (set_containers r (set_state s x))
  end.

(** writeStructEnd, 188-190 *)
Definition c_writeStructEnd : MC unit :=
  assert_state [FIELD_WRITE] ;;; pop_struct.

(** writeFieldStop, 192-193 *)
Definition c_writeFieldStop : MC unit := c_writeByte_ 0.

(** __writeFieldHeader, 195-202 *)
Definition c_writeFieldHeader (ctype fid : Z) : MC unit :=
  x <- get_px ;;
  let delta := fid - last_fid x in
  (if (0 <? delta) && (delta <=? 15)
   then c_writeUByte (Z.lor (Z.shiftl delta 4) ctype)
   else c_writeByte_ ctype ;;; c_writeI16_ fid) ;;;
  upd (set_last_fid fid).

(** writeFieldBegin, 204-211 *)
Definition c_writeFieldBegin (type fid : Z) : MC unit :=
  assert_state [FIELD_WRITE] ;;;
  if type =? T_BOOL then
    upd (set_state BOOL_WRITE) ;;; upd (set_bool_fid fid)
  else
    upd (set_state VALUE_WRITE) ;;;
    ct <- lookup_ctype type ;;
    c_writeFieldHeader ct fid.

(** writeFieldEnd, 213-215 *)
Definition c_writeFieldEnd : MC unit :=
  assert_state [VALUE_WRITE; BOOL_WRITE] ;;; upd (set_state FIELD_WRITE).

(** writeCollectionBegin, 229-239 (lists and sets) *)
Definition c_writeCollectionBegin (etype size : Z) : MC unit :=
  assert_state [VALUE_WRITE; CONTAINER_WRITE] ;;;
  (if size <=? 14 then
     ct <- lookup_ctype etype ;;
     c_writeUByte (Z.lor (Z.shiftl size 4) ct)
   else
     ct <- lookup_ctype etype ;;
     c_writeUByte (Z.lor 240 ct) ;;;
     writeVarint size) ;;;
  upd (fun x => set_containers (state x :: containers x) x) ;;;
  upd (set_state CONTAINER_WRITE).

(** writeMapBegin, 241-249 *)
Definition c_writeMapBegin (ktype vtype size : Z) : MC unit :=
  assert_state [VALUE_WRITE; CONTAINER_WRITE] ;;;
  (if size =? 0 then c_writeByte_ 0
   else
     writeVarint size ;;;
     kc <- lookup_ctype ktype ;;
     vc <- lookup_ctype vtype ;;
     c_writeUByte (Z.lor (Z.shiftl kc 4) vc)) ;;;
  upd (fun x => set_containers (state x :: containers x) x) ;;;
  upd (set_state CONTAINER_WRITE).

(** writeCollectionEnd, 251-256 *)
Definition c_writeCollectionEnd : MC unit :=
  assert_state [CONTAINER_WRITE] ;;; pop_container.

(** writeBool, 258-271 *)
Definition c_writeBool (b : bool) : MC unit :=
  x <- get_px ;;
  match state x with
  | BOOL_WRITE =>
      match bool_fid x with
      | Some fid => c_writeFieldHeader (if b then CT_TRUE else CT_FALSE) fid
      | None => raise ETypeError
      end
  | CONTAINER_WRITE => c_writeByte_ (if b then CT_TRUE else CT_FALSE)
  | _ => raise EAssertion
  end.

(** The [writer] decorator, 37-46. *)
Definition writer {A} (m : MC A) : MC A :=
  assert_state [VALUE_WRITE; CONTAINER_WRITE] ;;; m.

(** The [reader] decorator, 37-47. *)
Definition reader {A} (m : MC A) : MC A :=
  assert_state [VALUE_READ; CONTAINER_READ] ;;; m.

(** 273-295 *)
Definition c_writeByte (z : Z) : MC unit := writer (c_writeByte_ z).
Definition c_writeI16 (z : Z) : MC unit := writer (c_writeI16_ z).
Definition c_writeI32 (z : Z) : MC unit :=
  writer (n <- makeZigZag z 32 ;; writeVarint n).
Definition c_writeI64 (z : Z) : MC unit :=
  writer (n <- makeZigZag z 64 ;; writeVarint n).
(** [pack('<d', dub)]: the IEEE pattern little-endian. *)
Definition c_writeDouble (bits : Z) : MC unit := writer (twrite (le_bytes 8 bits)).
Definition c_writeUuid (u : list byte) : MC unit := writer (twrite u).
Definition c_writeBinary (s : list byte) : MC unit := writer (c_writeBinary_ s).
(** TProtocol.py 130-131 *)
Definition c_writeString (s : list Z) : MC unit :=
  b <- encode_utf8 s ;; c_writeBinary b.

(** __readUByte 323-325, __readByte 327-329 *)
Definition c_readUByte : MC Z := b <- readAll 1 ;; ret (unpack_unsigned b).
Definition c_readByte_ : MC Z := b <- readAll 1 ;; ret (unpack_signed 1 b).
(** __readZigZag 334-335 *)
Definition c_readZigZag : MC Z := n <- readVarint ;; ret (fromZigZag n).
(** __readSize 337-341.  The exception there gets the message as its type
    argument; it cannot happen since a varint is never negative. *)
Definition c_readSize : MC Z :=
  n <- readVarint ;;
  if n <? 0 then raise (EProtocol TP_UNKNOWN) else ret n.
(** __readBinary 438-441, _check_string_length 154-155 *)
Definition c_readBinary_ : MC (list byte) :=
  size <- c_readSize ;;
  check_length (c_string_length_limit cf) size ;;;
  readAll size.

(** readFieldBegin, 297-317 *)
Definition c_readFieldBegin : MC (Z * Z) :=
  assert_state [FIELD_READ] ;;;
  type <- c_readUByte ;;
  if Z.land type 15 =? T_STOP then ret (0, 0)
  else
    let delta := Z.shiftr type 4 in
    fid <- (if delta =? 0 then c_readZigZag
            else x <- get_px ;; ret (last_fid x + delta)) ;;
    upd (set_last_fid fid) ;;;
    let type' := Z.land type 15 in
    (if type' =? CT_TRUE then
       upd (set_state BOOL_READ) ;;; upd (set_bool_value true)
     else if type' =? CT_FALSE then
       upd (set_state BOOL_READ) ;;; upd (set_bool_value false)
     else upd (set_state VALUE_READ)) ;;;
    t <- getTType type' ;;
    ret (t, fid).

(** readFieldEnd, 319-321 *)
Definition c_readFieldEnd : MC unit :=
  assert_state [VALUE_READ; BOOL_READ] ;;; upd (set_state FIELD_READ).

(** readMessageBegin, 343-361 *)
Definition c_readMessageBegin : MC (list Z * Z * Z) :=
  assert_state [CLEAR] ;;;
  proto_id <- c_readUByte ;;
  if negb (proto_id =? C_PROTOCOL_ID) then raise (EProtocol TP_BAD_VERSION)
  else
    ver_type <- c_readUByte ;;
    let type := Z.land (Z.shiftr ver_type C_TYPE_SHIFT) C_TYPE_BITS in
    let version := Z.land ver_type C_VERSION_MASK in
    if negb (version =? C_VERSION) then raise (EProtocol TP_BAD_VERSION)
    else
      seqid <- readVarint ;;
      let seqid' := if seqid >? 2147483647
                    then -2147483648 - (2147483648 - seqid) else seqid in
      b <- c_readBinary_ ;;
      name <- decode_utf8 b ;;
      ret (name, type, seqid').

(** readMessageEnd, 363-365 *)
Definition c_readMessageEnd : MC unit :=
  assert_state [CLEAR] ;;;
  x <- get_px ;;
  assert_ (match structs x with [] => true | _ => false end).

(** readStructBegin, 367-371 *)
Definition c_readStructBegin : MC unit :=
  assert_state [CLEAR; CONTAINER_READ; VALUE_READ] ;;;
  upd (fun x => set_structs ((state x, last_fid x) :: structs x) x) ;;;
  upd (set_state FIELD_READ) ;;;
  upd (set_last_fid 0).

(** readStructEnd, 373-375 *)
Definition c_readStructEnd : MC unit :=
  assert_state [FIELD_READ] ;;; pop_struct.

(** readCollectionBegin, 377-389, _check_container_length 157-158 *)
Definition c_readCollectionBegin : MC (Z * Z) :=
  assert_state [VALUE_READ; CONTAINER_READ] ;;;
  size_type <- c_readUByte ;;
  let size := Z.shiftr size_type 4 in
  type <- getTType size_type ;;
  size' <- (if size =? 15 then c_readSize else ret size) ;;
  check_length (c_container_length_limit cf) size' ;;;
  upd (fun x => set_containers (state x :: containers x) x) ;;;
  upd (set_state CONTAINER_READ) ;;;
  ret (type, size').

(** readMapBegin, 391-402 *)
Definition c_readMapBegin : MC (Z * Z * Z) :=
  assert_state [VALUE_READ; CONTAINER_READ] ;;;
  size <- c_readSize ;;
  check_length (c_container_length_limit cf) size ;;;
  types <- (if size >? 0 then c_readUByte else ret 0) ;;
  vtype <- getTType types ;;
  ktype <- getTType (Z.shiftr types 4) ;;
  upd (fun x => set_containers (state x :: containers x) x) ;;;
  upd (set_state CONTAINER_READ) ;;;
  ret (ktype, vtype, size).

(** readCollectionEnd, 404-409 *)
Definition c_readCollectionEnd : MC unit :=
  assert_state [CONTAINER_READ] ;;; pop_container.

(** readBool, 411-418.  [True == CompactType.TRUE] is true in Python. *)
Definition c_readBool : MC bool :=
  x <- get_px ;;
  match state x with
  | BOOL_READ =>
      ret (match bool_value x with Some true => true | _ => false end)
  | CONTAINER_READ => b <- c_readByte_ ;; ret (b =? CT_TRUE)
  | _ => raise EAssertion
  end.

(** 420-442 *)
Definition c_readByte : MC Z := reader c_readByte_.
Definition c_readI16 : MC Z := reader c_readZigZag.
Definition c_readI32 : MC Z := reader c_readZigZag.
Definition c_readI64 : MC Z := reader c_readZigZag.
Definition c_readDouble : MC Z :=
  reader (buff <- readAll 8 ;; ret (le_val buff)).
Definition c_readUuid : MC (list byte) := reader (readAll 16).
Definition c_readBinary : MC (list byte) := reader c_readBinary_.
(** TProtocol.py 193-194 *)
Definition c_readString : MC (list Z) :=
  b <- c_readBinary ;; decode_utf8 b.

Definition compact : proto cst := {|
  writeMessageBegin := c_writeMessageBegin;
  writeMessageEnd := c_writeMessageEnd;
  writeStructBegin := c_writeStructBegin;
  writeStructEnd := c_writeStructEnd;
  writeFieldBegin := c_writeFieldBegin;
  writeFieldEnd := c_writeFieldEnd;
  writeFieldStop := c_writeFieldStop;
  writeMapBegin := c_writeMapBegin;
  writeMapEnd := c_writeCollectionEnd;
  writeListBegin := c_writeCollectionBegin;
  writeListEnd := c_writeCollectionEnd;
  writeSetBegin := c_writeCollectionBegin;
  writeSetEnd := c_writeCollectionEnd;
  writeBool := c_writeBool;
  writeByte := c_writeByte;
  writeI16 := c_writeI16;
  writeI32 := c_writeI32;
  writeI64 := c_writeI64;
  writeDouble := c_writeDouble;
  writeString := c_writeString;
  writeBinary := c_writeBinary;
  writeUuid := c_writeUuid;
  readMessageBegin := c_readMessageBegin;
  readMessageEnd := c_readMessageEnd;
  readStructBegin := c_readStructBegin;
  readStructEnd := c_readStructEnd;
  readFieldBegin := c_readFieldBegin;
  readFieldEnd := c_readFieldEnd;
  readMapBegin := c_readMapBegin;
  readMapEnd := c_readCollectionEnd;
  readListBegin := c_readCollectionBegin;
  readListEnd := c_readCollectionEnd;
  readSetBegin := c_readCollectionBegin;
  readSetEnd := c_readCollectionEnd;
  readBool := c_readBool;
  readByte := c_readByte;
  readI16 := c_readI16;
  readI32 := c_readI32;
  readI64 := c_readI64;
  readDouble := c_readDouble;
  readString := c_readString;
  readBinary := c_readBinary;
  readUuid := c_readUuid |}.

End Compact.
