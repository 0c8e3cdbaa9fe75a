(** The table-driven struct code used by dynamic classes: TBase.read/write and
    TProtocolBase.readStruct/writeStruct.  No proofs here. *)
From Coq Require Import ZArith List Bool.
From Coq Require Import Init.Byte.
From Verif Require Import Base Bytes Utf8 Proto.
Import ListNotations.
Open Scope Z_scope.

(** * The field table

    [thrift_spec], emitted by generate_py_thrift_spec (t_py_generator.cc
    776-812): a tuple indexed by field id, with None for the ids that are not
    used; empty when the smallest id is negative.  An entry keeps the field
    and the position of its attribute (the code keeps the attribute's name).
    The spec arguments of an entry (element types, element specs, classes) are
    the model's [ty], and the handler chosen by [_ttype_handlers] (TProtocol.py
    253-279) is the one of [read_base]/[write_base]. *)
Fixpoint spec_entries (pos : Z) (i : nat) (ds : list fielddef)
  : list (option (nat * fielddef)) :=
  match ds with
  | [] => []
  | d :: r =>
      repeat None (Z.to_nat (f_id d - pos))
      ++ Some (i, d) :: spec_entries (f_id d + 1) (S i) r
  end.

Definition thrift_spec (ds : list fielddef) : list (option (nat * fielddef)) :=
  match ds with
  | [] => []
  | d :: _ => if 0 <=? f_id d then spec_entries 0 0 ds else []
  end.

(** [t[i]] for a Python tuple: a negative index counts from the end; None is
    IndexError (also for integers that do not fit a machine word). *)
Definition py_index {A} (l : list A) (i : Z) : option A :=
  let n := Z.of_nat (length l) in
  if (0 <=? i) && (i <? n) then nth_error l (Z.to_nat i)
  else if (- n <=? i) && (i <? 0) then nth_error l (Z.to_nat (n + i))
  else None.

(** sys.maxsize on a 64-bit machine. *)
Definition MAXSIZE := 9223372036854775807.

(** Consuming [islice(gen, size)]: ValueError unless 0 <= size <= sys.maxsize
    (TProtocol.py 298, 307, 331). *)
Definition islice {S A} (fuel : nat) (size : Z) (f : A -> SM S A) (acc : A)
  : SM S A :=
  if (size <? 0) || (MAXSIZE <? size) then raise EValueError
  else repeatM fuel size f acc.

Section WithProto.
Context {X : Type}.
Variable P : proto X.

(** readFieldByTType, readContainerList/Set/Map (TProtocol.py 281-334).  The
    generators yield one element per read; a set or dict is filled as the
    elements come.  The wire element types are ignored. *)
Fixpoint dread_ty (rs : nat -> M X value) (fuel : nat) (t : ty) : M X value :=
  match t with
  | TList et =>
      '(_, size) <- readListBegin P ;;
      l <- islice fuel size
             (fun acc => v <- dread_ty rs fuel et ;; ret (acc ++ [v])) [] ;;
      readListEnd P ;;;
      ret (VList l)
  | TSet et =>
      '(_, size) <- readSetBegin P ;;
      l <- islice fuel size
             (fun acc => v <- dread_ty rs fuel et ;;
                         if hashable et then ret (set_add acc v)
                         else raise ETypeError) [] ;;
      readSetEnd P ;;;
      ret (VSet l)
  | TMap kt vt =>
      '(_, _, size) <- readMapBegin P ;;
      l <- islice fuel size
             (fun acc => k <- dread_ty rs fuel kt ;;
                         v <- dread_ty rs fuel vt ;;
                         if hashable kt then ret (dict_set acc k v)
                         else raise ETypeError) [] ;;
      readMapEnd P ;;;
      ret (VMap l)
  | TStruct n => rs n
  | _ => read_base P t
  end.

(** The loop of readStruct (TProtocol.py 340-359). *)
Fixpoint dread_fields (fuel : nat) (skfuel : nat) (rv : ty -> M X value)
    (spec : list (option (nat * fielddef))) (acc : list (option value))
  : M X (list (option value)) :=
  match fuel with
  | O => diverge
  | S f =>
      '(ftype, fid) <- readFieldBegin P ;;
      if ftype =? T_STOP then ret acc
      else
        match py_index spec fid with
        | Some (Some (i, d)) =>
            if ftype =? code (f_ty d) then
              v <- rv (f_ty d) ;;
              readFieldEnd P ;;;
              dread_fields f skfuel rv spec (set_nth i (Some v) acc)
            else
              skip P skfuel SKIP_DEPTH ftype ;;;
              readFieldEnd P ;;;
              dread_fields f skfuel rv spec acc
        | _ =>
            skip P skfuel SKIP_DEPTH ftype ;;;
            readFieldEnd P ;;;
            dread_fields f skfuel rv spec acc
        end
  end.

Variable env : schema.

(** TBase.read (TBase.py 43-49, the branch without C decoder) through
    readContainerStruct and readStruct (TProtocol.py 312-322, 336-362): no
    depth is counted.  [dfuel] bounds the nesting of struct readers; the
    interpreter's own recursion limit is not modelled. *)
Fixpoint dread_struct (dfuel : nat) (fuel : nat) (n : nat) : M X value :=
  match dfuel with
  | O => diverge
  | S k =>
      match nth_error env n with
      | None => raise EAttributeError
      | Some ds =>
          readStructBegin P ;;;
          acc <- dread_fields fuel fuel (dread_ty (dread_struct k fuel) fuel)
                   (thrift_spec ds) (fresh ds) ;;
          readStructEnd P ;;;
          ret (VStruct n acc)
      end
  end.

(** The loop of writeStruct (TProtocol.py 391-404).  [ws] holds, per
    attribute, what writes its value; [getattr] of an attribute the object
    does not have raises AttributeError. *)
Fixpoint dwrite_fields (ws : list (option (ty -> M X unit)))
    (spec : list (option (nat * fielddef))) : M X unit :=
  match spec with
  | [] => ret tt
  | None :: r => dwrite_fields ws r
  | Some (i, d) :: r =>
      match nth_error ws i with
      | None => raise EAttributeError
      | Some None => dwrite_fields ws r
      | Some (Some w) =>
          writeFieldBegin P (code (f_ty d)) (f_id d) ;;;
          w (f_ty d) ;;;
          writeFieldEnd P ;;;
          dwrite_fields ws r
      end
  end.

(** TBase.write (TBase.py 51-56), writeStruct, writeFieldByTType and
    writeContainer* (TProtocol.py 364-416): no validation, no depth. *)
Fixpoint dwrite_value (t : ty) (v : value) {struct v} : M X unit :=
  match t, v with
  | TList et, VList l =>
      writeListBegin P (code et) (Z.of_nat (length l)) ;;;
      mapM_ (dwrite_value et) l ;;;
      writeListEnd P
  | TSet et, VSet l =>
      writeSetBegin P (code et) (Z.of_nat (length l)) ;;;
      mapM_ (dwrite_value et) l ;;;
      writeSetEnd P
  | TMap kt vt, VMap l =>
      writeMapBegin P (code kt) (code vt) (Z.of_nat (length l)) ;;;
      mapM_ (fun kv => match kv with
                       | (k, x) => dwrite_value kt k ;;; dwrite_value vt x
                       end) l ;;;
      writeMapEnd P
  | TStruct _, VStruct n fs =>
      match nth_error env n with
      | None => raise EAttributeError
      | Some ds =>
          writeStructBegin P ;;;
          dwrite_fields
            (map (fun f => match f with
                           | Some x => Some (fun t' => dwrite_value t' x)
                           | None => None
                           end) fs) (thrift_spec ds) ;;;
          writeFieldStop P ;;;
          writeStructEnd P
      end
  | _, _ => write_base P t v
  end.

Definition dwrite_struct (n : nat) (v : value) : M X unit :=
  dwrite_value (TStruct n) v.

End WithProto.

(** A dynamic object written into a new TMemoryBuffer. *)
Definition dserialize {X} (P : proto X) (x0 : X) (env : schema) (n : nat)
    (v : value) : outcome (list byte) :=
  match dwrite_struct P env n v (mkst x0 [] [] 0) with
  | (Ok _, s) => Ok (out s)
  | (Raise e, _) => Raise e
  | (Diverge, _) => Diverge
  end.

(** A dynamic object read from a TMemoryBuffer holding [buf].  Every nested
    struct costs a byte at least, hence the nesting fuel. *)
Definition ddeserialize {X} (P : proto X) (x0 : X) (env : schema) (n : nat)
    (buf : list byte) : outcome (value * list byte) :=
  match dread_struct P env (DFUEL + length buf) (S (length buf)) n
          (mkst x0 buf [] 0) with
  | (Ok v, s) => Ok (v, inp s)
  | (Raise e, _) => Raise e
  | (Diverge, _) => Diverge
  end.
