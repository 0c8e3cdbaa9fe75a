(** Schemas, values, the protocol API, and the code shared by all protocols:
    TProtocolBase and the struct code emitted by the Python generator.
    No proofs here. *)
From Coq Require Import ZArith List Bool.
From Coq Require Import Init.Byte.
From Verif Require Import Base Bytes Utf8.
Import ListNotations.
Open Scope Z_scope.

(** * Schemas and values *)

(** Thrift types as seen by the Python generator.  An enum is [TI32]
    (t_py_generator.cc 2419-2425 without the [enum] option).  [TStruct n] is
    the n-th struct, union or exception class of the schema.  Immutable
    (frozen) containers and structs are not distinguished. *)
Inductive ty :=
| TBool | TByte | TI16 | TI32 | TI64 | TDouble | TString | TBinary | TUuid
| TList (t : ty) | TSet (t : ty) | TMap (k v : ty) | TStruct (n : nat).

(** Python objects the generated code handles.  Integers are unbounded.  A
    double is its 64-bit IEEE pattern.  A set is its elements in iteration
    order, a dict its items in insertion order.  A struct object is its class
    and its attributes, [None] being an unset attribute. *)
Inductive value :=
| VBool (b : bool)
| VInt (z : Z)
| VDouble (bits : Z)
| VStr (s : list Z)
| VBin (b : list byte)
| VUuid (b : list byte)
| VList (l : list value)
| VSet (l : list value)
| VMap (l : list (value * value))
| VStruct (n : nat) (fs : list (option value)).

(** A field of a struct: id, type, whether [required], default value.
    Fields are listed in the order of their ids, the order in which the
    writer emits them (get_sorted_members, t_py_generator.cc 1211). *)
Record fielddef := mkfield {
  f_id : Z;
  f_ty : ty;
  f_req : bool;
  f_def : option value }.

Definition schema := list (list fielddef).

(** type_to_enum (t_py_generator.cc 2961-3003). *)
Definition code (t : ty) : Z :=
  match t with
  | TBool => T_BOOL | TByte => T_BYTE | TI16 => T_I16 | TI32 => T_I32
  | TI64 => T_I64 | TDouble => T_DOUBLE | TString => T_STRING
  | TBinary => T_STRING | TUuid => T_UUID | TList _ => T_LIST
  | TSet _ => T_SET | TMap _ _ => T_MAP | TStruct _ => T_STRUCT
  end.

(** * Python equality and hashing of set elements and dict keys *)

Definition dbl_nan (b : Z) : bool := 9218868437227405312 <? b mod 2 ^ 63.
Definition dbl_zero (b : Z) : bool := b mod 2 ^ 63 =? 0.
Definition dbl_eqb (a b : Z) : bool :=
  negb (dbl_nan a) && negb (dbl_nan b)
  && ((a =? b) || (dbl_zero a && dbl_zero b)).

(** [==] between two hashable values of the same base type.  NaN differs from
    everything (objects made by the decoder are distinct), -0.0 equals 0.0. *)
Definition key_eqb (a b : value) : bool :=
  match a, b with
  | VBool x, VBool y => Bool.eqb x y
  | VInt x, VInt y => x =? y
  | VDouble x, VDouble y => dbl_eqb x y
  | VStr x, VStr y => if list_eq_dec Z.eq_dec x y then true else false
  | VBin x, VBin y => bytes_eqb x y
  | VUuid x, VUuid y => bytes_eqb x y
  | _, _ => false
  end.

(** Whether objects of this type can be set elements or dict keys: lists,
    sets, dicts and (non-frozen) structs are unhashable in Python. *)
Definition hashable (t : ty) : bool :=
  match t with
  | TList _ | TSet _ | TMap _ _ | TStruct _ => false
  | _ => true
  end.

(** [s.add(v)] *)
Definition set_add (l : list value) (v : value) : list value :=
  if existsb (key_eqb v) l then l else l ++ [v].

(** [d[k] = v]: an existing equal key keeps its place and its key object. *)
Fixpoint dict_set (l : list (value * value)) (k v : value)
  : list (value * value) :=
  match l with
  | [] => [(k, v)]
  | (k', v') :: r =>
      if key_eqb k k' then (k', v) :: r else (k', v') :: dict_set r k v
  end.

(** * The protocol API (TProtocol.py 73-200)

    Struct and field names are not passed: no modelled protocol sends them.
    [readFieldBegin] returns (type, id). *)
Record proto (X : Type) := mkproto {
  writeMessageBegin : list Z -> Z -> Z -> M X unit;
  writeMessageEnd : M X unit;
  writeStructBegin : M X unit;
  writeStructEnd : M X unit;
  writeFieldBegin : Z -> Z -> M X unit;
  writeFieldEnd : M X unit;
  writeFieldStop : M X unit;
  writeMapBegin : Z -> Z -> Z -> M X unit;
  writeMapEnd : M X unit;
  writeListBegin : Z -> Z -> M X unit;
  writeListEnd : M X unit;
  writeSetBegin : Z -> Z -> M X unit;
  writeSetEnd : M X unit;
  writeBool : bool -> M X unit;
  writeByte : Z -> M X unit;
  writeI16 : Z -> M X unit;
  writeI32 : Z -> M X unit;
  writeI64 : Z -> M X unit;
  writeDouble : Z -> M X unit;
  writeString : list Z -> M X unit;
  writeBinary : list byte -> M X unit;
  writeUuid : list byte -> M X unit;
  readMessageBegin : M X (list Z * Z * Z);
  readMessageEnd : M X unit;
  readStructBegin : M X unit;
  readStructEnd : M X unit;
  readFieldBegin : M X (Z * Z);
  readFieldEnd : M X unit;
  readMapBegin : M X (Z * Z * Z);
  readMapEnd : M X unit;
  readListBegin : M X (Z * Z);
  readListEnd : M X unit;
  readSetBegin : M X (Z * Z);
  readSetEnd : M X unit;
  readBool : M X bool;
  readByte : M X Z;
  readI16 : M X Z;
  readI32 : M X Z;
  readI64 : M X Z;
  readDouble : M X Z;
  readString : M X (list Z);
  readBinary : M X (list byte);
  readUuid : M X (list byte) }.

Arguments writeMessageBegin {X} p.  Arguments writeMessageEnd {X} p.
Arguments writeStructBegin {X} p.   Arguments writeStructEnd {X} p.
Arguments writeFieldBegin {X} p.    Arguments writeFieldEnd {X} p.
Arguments writeFieldStop {X} p.     Arguments writeMapBegin {X} p.
Arguments writeMapEnd {X} p.        Arguments writeListBegin {X} p.
Arguments writeListEnd {X} p.       Arguments writeSetBegin {X} p.
Arguments writeSetEnd {X} p.        Arguments writeBool {X} p.
Arguments writeByte {X} p.          Arguments writeI16 {X} p.
Arguments writeI32 {X} p.           Arguments writeI64 {X} p.
Arguments writeDouble {X} p.        Arguments writeString {X} p.
Arguments writeBinary {X} p.        Arguments writeUuid {X} p.
Arguments readMessageBegin {X} p.   Arguments readMessageEnd {X} p.
Arguments readStructBegin {X} p.    Arguments readStructEnd {X} p.
Arguments readFieldBegin {X} p.     Arguments readFieldEnd {X} p.
Arguments readMapBegin {X} p.       Arguments readMapEnd {X} p.
Arguments readListBegin {X} p.      Arguments readListEnd {X} p.
Arguments readSetBegin {X} p.       Arguments readSetEnd {X} p.
Arguments readBool {X} p.           Arguments readByte {X} p.
Arguments readI16 {X} p.            Arguments readI32 {X} p.
Arguments readI64 {X} p.            Arguments readDouble {X} p.
Arguments readString {X} p.         Arguments readBinary {X} p.
Arguments readUuid {X} p.

(** * TProtocolBase helpers *)

(** DEFAULT_RECURSION_DEPTH, TProtocol.py 46. *)
Definition DEFAULT_RECURSION_DEPTH := 64.

(** increment_recursion_depth, TProtocol.py 54-59. *)
Definition increment_recursion_depth {X} : M X unit :=
  fun s =>
    let d := depth s + 1 in
    if d >? DEFAULT_RECURSION_DEPTH
    then (Raise (EProtocol TP_DEPTH_LIMIT),
          mkst (px s) (inp s) (out s) (d - 1))
    else (Ok tt, mkst (px s) (inp s) (out s) d).

(** decrement_recursion_depth, TProtocol.py 61-62. *)
Definition decrement_recursion_depth {X} (s : st X) : st X :=
  mkst (px s) (inp s) (out s) (depth s - 1).

(** The frame the generator puts around a struct reader or writer body:
    increment, then try/finally decrement (t_py_generator.cc 1122-1124,
    1200-1202 and 1226-1228, 1253-1255). *)
Definition with_depth {X A} (m : M X A) : M X A :=
  increment_recursion_depth ;;; try_finally m decrement_recursion_depth.

(** _check_length, TProtocol.py 64-71.  It raises TTransportException. *)
Definition check_length {X} (limit : option Z) (n : Z) : M X unit :=
  if n <? 0 then raise (ETransport TT_NEGATIVE_SIZE)
  else match limit with
       | Some l => if n >? l then raise (ETransport TT_SIZE_LIMIT) else ret tt
       | None => ret tt
       end.

Section WithProto.
Context {X : Type}.
Variable P : proto X.

(** The struct loop of [skip], TProtocol.py 221-228.  [fuel] bounds the number
    of iterations of [while True]. *)
Fixpoint skip_fields (fuel : nat) (sk : Z -> M X unit) : M X unit :=
  match fuel with
  | O => diverge
  | S f =>
      '(ttype, _) <- readFieldBegin P ;;
      if ttype =? T_STOP then ret tt
      else sk ttype ;;; readFieldEnd P ;;; skip_fields f sk
  end.

(** skip, TProtocol.py 202-250.  [max_depth] is a [nat]: zero stands for
    [max_depth <= 0]. *)
Fixpoint skip (fuel : nat) (max_depth : nat) (ttype : Z) : M X unit :=
  match max_depth with
  | O => raise (EProtocol TP_DEPTH_LIMIT)
  | S k =>
      if ttype =? T_BOOL then readBool P ;;; ret tt
      else if ttype =? T_BYTE then readByte P ;;; ret tt
      else if ttype =? T_I16 then readI16 P ;;; ret tt
      else if ttype =? T_I32 then readI32 P ;;; ret tt
      else if ttype =? T_I64 then readI64 P ;;; ret tt
      else if ttype =? T_DOUBLE then readDouble P ;;; ret tt
      else if ttype =? T_STRING then readString P ;;; ret tt
      else if ttype =? T_STRUCT then
        readStructBegin P ;;;
        skip_fields fuel (skip fuel k) ;;;
        readStructEnd P
      else if ttype =? T_MAP then
        '(ktype, vtype, size) <- readMapBegin P ;;
        repeatM fuel size
          (fun _ : unit => skip fuel k ktype ;;; skip fuel k vtype) tt ;;;
        readMapEnd P
      else if ttype =? T_SET then
        '(etype, size) <- readSetBegin P ;;
        repeatM fuel size (fun _ : unit => skip fuel k etype) tt ;;;
        readSetEnd P
      else if ttype =? T_LIST then
        '(etype, size) <- readListBegin P ;;
        repeatM fuel size (fun _ : unit => skip fuel k etype) tt ;;;
        readListEnd P
      else if ttype =? T_UUID then readUuid P ;;; ret tt
      else raise (EProtocol TP_INVALID_DATA)
  end.

(** The default [max_depth] of [skip], TProtocol.py 202. *)
Definition SKIP_DEPTH : nat := 64.

(** * Generated writer *)

(** [self.f is not None] for each required field: validate, emitted by
    generate_py_struct_required_validator (t_py_generator.cc 1264-1285). *)
Fixpoint validate (ds : list fielddef) (fs : list (option value)) : bool :=
  match ds, fs with
  | d :: ds', None :: fs' => negb (f_req d) && validate ds' fs'
  | _ :: ds', Some _ :: fs' => validate ds' fs'
  | _, _ => true
  end.

(** Writer for base types (t_py_generator.cc 2567-2619).  An object of the
    wrong Python type raises TypeError; Python would also accept some
    look-alikes (True for 1), which are not modelled. *)
Definition write_base (t : ty) (v : value) : M X unit :=
  match t, v with
  | TBool, VBool b => writeBool P b
  | TByte, VInt z => writeByte P z
  | TI16, VInt z => writeI16 P z
  | TI32, VInt z => writeI32 P z
  | TI64, VInt z => writeI64 P z
  | TDouble, VDouble d => writeDouble P d
  | TString, VStr s => writeString P s
  | TBinary, VBin b => writeBinary P b
  | TUuid, VUuid b => writeUuid P b
  | _, _ => raise ETypeError
  end.

(** The per-field part of a struct writer (t_py_generator.cc 1231-1246). *)
Definition write_fields (w : ty -> value -> M X unit)
  : list (option value) -> list fielddef -> M X unit :=
  fix go fs ds :=
    match fs, ds with
    | Some v :: fs', d :: ds' =>
        writeFieldBegin P (code (f_ty d)) (f_id d) ;;;
        w (f_ty d) v ;;;
        writeFieldEnd P ;;;
        go fs' ds'
    | None :: fs', _ :: ds' => go fs' ds'
    | _, _ => ret tt
    end.

Variable env : schema.

(** Generated serialisation code (t_py_generator.cc 1209-1262, 2555-2712).
    A struct is written by the [write] method of the object's own class. *)
Fixpoint write_value (t : ty) (v : value) {struct v} : M X unit :=
  match t, v with
  | TList et, VList l =>
      writeListBegin P (code et) (Z.of_nat (length l)) ;;;
      mapM_ (write_value et) l ;;;
      writeListEnd P
  | TSet et, VSet l =>
      writeSetBegin P (code et) (Z.of_nat (length l)) ;;;
      mapM_ (write_value et) l ;;;
      writeSetEnd P
  | TMap kt vt, VMap l =>
      writeMapBegin P (code kt) (code vt) (Z.of_nat (length l)) ;;;
      mapM_ (fun kv => match kv with
                       | (k, x) => write_value kt k ;;; write_value vt x
                       end) l ;;;
      writeMapEnd P
  | TStruct _, VStruct n fs =>
      match nth_error env n with
      | None => raise EAttributeError
      | Some ds =>
          if validate ds fs then
            with_depth
              (writeStructBegin P ;;;
               write_fields write_value fs ds ;;;
               writeFieldStop P ;;;
               writeStructEnd P)
          else raise (EProtocol TP_UNKNOWN)
      end
  | _, _ => write_base t v
  end.

(** [obj.write(oprot)] for an object of class [n]. *)
Definition write_struct (n : nat) (v : value) : M X unit :=
  write_value (TStruct n) v.

(** * Generated reader *)

Definition read_base (t : ty) : M X value :=
  match t with
  | TBool => b <- readBool P ;; ret (VBool b)
  | TByte => z <- readByte P ;; ret (VInt z)
  | TI16 => z <- readI16 P ;; ret (VInt z)
  | TI32 => z <- readI32 P ;; ret (VInt z)
  | TI64 => z <- readI64 P ;; ret (VInt z)
  | TDouble => d <- readDouble P ;; ret (VDouble d)
  | TString => s <- readString P ;; ret (VStr s)
  | TBinary => b <- readBinary P ;; ret (VBin b)
  | TUuid => b <- readUuid P ;; ret (VUuid b)
  | _ => raise ETypeError
  end.

(** generate_deserialize_field / _container (t_py_generator.cc 2361-2547),
    given the reader [rs] for struct classes.  The wire element types are read
    and ignored. *)
Fixpoint read_ty (rs : nat -> M X value) (fuel : nat) (t : ty) : M X value :=
  match t with
  | TList et =>
      '(_, size) <- readListBegin P ;;
      l <- repeatM fuel size
             (fun acc => v <- read_ty rs fuel et ;; ret (acc ++ [v])) [] ;;
      readListEnd P ;;;
      ret (VList l)
  | TSet et =>
      '(_, size) <- readSetBegin P ;;
      l <- repeatM fuel size
             (fun acc => v <- read_ty rs fuel et ;;
                         if hashable et then ret (set_add acc v)
                         else raise ETypeError) [] ;;
      readSetEnd P ;;;
      ret (VSet l)
  | TMap kt vt =>
      '(_, _, size) <- readMapBegin P ;;
      l <- repeatM fuel size
             (fun acc => k <- read_ty rs fuel kt ;;
                         v <- read_ty rs fuel vt ;;
                         if hashable kt then ret (dict_set acc k v)
                         else raise ETypeError) [] ;;
      readMapEnd P ;;;
      ret (VMap l)
  | TStruct n => rs n
  | _ => read_base t
  end.

(** Position and definition of the field with a given id: the if/elif chain on
    [fid] (t_py_generator.cc 1154-1180). *)
Fixpoint find_field (ds : list fielddef) (fid : Z) : option (nat * fielddef) :=
  match ds with
  | [] => None
  | d :: r =>
      if fid =? f_id d then Some (O, d)
      else match find_field r fid with
           | Some (i, d') => Some (S i, d')
           | None => None
           end
  end.

Fixpoint set_nth {A} (i : nat) (a : A) (l : list A) : list A :=
  match l, i with
  | [], _ => []
  | _ :: r, O => a :: r
  | x :: r, S j => x :: set_nth j a r
  end.

(** The [while True] loop of a generated reader (t_py_generator.cc 1142-1187).
    [acc] holds the attributes of the object being filled. *)
Fixpoint read_fields (fuel : nat) (skfuel : nat) (rv : ty -> M X value)
    (ds : list fielddef) (acc : list (option value))
  : M X (list (option value)) :=
  match fuel with
  | O => diverge
  | S f =>
      '(ftype, fid) <- readFieldBegin P ;;
      if ftype =? T_STOP then ret acc
      else match find_field ds fid with
           | Some (i, d) =>
               if ftype =? code (f_ty d) then
                 v <- rv (f_ty d) ;;
                 readFieldEnd P ;;;
                 read_fields f skfuel rv ds (set_nth i (Some v) acc)
               else
                 skip skfuel SKIP_DEPTH ftype ;;;
                 readFieldEnd P ;;;
                 read_fields f skfuel rv ds acc
           | None =>
               skip skfuel SKIP_DEPTH ftype ;;;
               readFieldEnd P ;;;
               read_fields f skfuel rv ds acc
           end
  end.

(** Attributes of a freshly constructed object: [cls()] (t_py_generator.cc
    819-1090) sets each field to its default or None.  Defaults are values
    here; what happens to them as objects is in Defaults.v (C73). *)
Definition fresh (ds : list fielddef) : list (option value) := map f_def ds.

(** [read] of class [n] (t_py_generator.cc 1095-1205).  [dfuel] bounds the
    nesting of struct readers. *)
Fixpoint read_struct (dfuel : nat) (fuel : nat) (n : nat) : M X value :=
  match dfuel with
  | O => diverge
  | S k =>
      match nth_error env n with
      | None => raise EAttributeError
      | Some ds =>
          with_depth
            (readStructBegin P ;;;
             acc <- read_fields fuel fuel (read_ty (read_struct k fuel) fuel)
                      ds (fresh ds) ;;
             readStructEnd P ;;;
             ret (VStruct n acc))
      end
  end.

(** Enough nesting fuel for any read starting at depth zero or more: the depth
    check stops the recursion first. *)
Definition DFUEL : nat := 65.

End WithProto.

(** * Running a protocol over memory buffers (TSerialization.py 27-38) *)

(** [obj.write(protocol)] into a new TMemoryBuffer, then [getvalue()].  [x0]
    is the state of a new protocol object. *)
Definition serialize {X} (P : proto X) (x0 : X) (env : schema) (n : nat)
    (v : value) : outcome (list byte) :=
  match write_struct P env n v (mkst x0 [] [] 0) with
  | (Ok _, s) => Ok (out s)
  | (Raise e, _) => Raise e
  | (Diverge, _) => Diverge
  end.

(** [obj = cls(); obj.read(protocol)] from a TMemoryBuffer holding [buf].
    Also returns the bytes left unread. *)
Definition deserialize {X} (P : proto X) (x0 : X) (env : schema) (n : nat)
    (buf : list byte) : outcome (value * list byte) :=
  match read_struct P env DFUEL (S (length buf)) n (mkst x0 buf [] 0) with
  | (Ok v, s) => Ok (v, inp s)
  | (Raise e, _) => Raise e
  | (Diverge, _) => Diverge
  end.
