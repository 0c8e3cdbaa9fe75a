(** TSimpleJSONProtocol (lib/py/src/protocol/TJSONProtocol.py 609-690), the
    write-only JSON protocol, on a TMemoryBuffer, driven by the generated
    writers.  Line numbers below are lines of that file.  No proofs here. *)
From Coq Require Import ZArith List Bool.
From Coq Require Import Init.Byte.
From Verif Require Import Base Utf8 Proto Compact JsonText Json.
Import ListNotations.
Open Scope Z_scope.

Section Simple.
(** ['{0}'.format(d)] of a float: [repr], which is not modelled.  Everything
    below holds for any such function. *)
Variable dtext : Z -> list Z.
(** The name of field [i] of struct [n], as the generated writers pass it to
    writeFieldBegin (t_py_generator.cc 1238-1241). *)
Variable names : nat -> nat -> list Z.
Variable env : schema.

(** 661-690.  writeBool writes 1 for True and 0 otherwise. *)
Definition ss_base (t : ty) (v : value) : MJ unit :=
  match t, v with
  | TBool, VBool b => writeJSONNumber (int_text (if b then 1 else 0))
  | TByte, VInt z => checkIntegerLimits z 8 ;;; writeJSONNumber (int_text z)
  | TI16, VInt z => checkIntegerLimits z 16 ;;; writeJSONNumber (int_text z)
  | TI32, VInt z => checkIntegerLimits z 32 ;;; writeJSONNumber (int_text z)
  | TI64, VInt z => checkIntegerLimits z 64 ;;; writeJSONNumber (int_text z)
  | TDouble, VDouble d => writeJSONNumber (dtext d)
  | TString, VStr s => writeJSONString s
  | TBinary, VBin b => writeJSONBase64 b
  | TUuid, VUuid u => writeJSONString (uuid_text u)
  | _, _ => raise ETypeError
  end.

(** The per-field part of a generated writer (t_py_generator.cc 1231-1246) with
    writeFieldBegin, 639-640; writeFieldEnd, 642-643, does nothing. *)
Definition ss_fields (n : nat) (w : ty -> value -> MJ unit)
  : nat -> list (option value) -> list fielddef -> MJ unit :=
  fix go i fs ds :=
    match fs, ds with
    | Some v :: fs', d :: ds' =>
        writeJSONString (names n i) ;;;
        w (f_ty d) v ;;;
        go (S i) fs' ds'
    | None :: fs', _ :: ds' => go (S i) fs' ds'
    | _, _ => ret tt
    end.

(** [write_value] of Proto.v with writeStructBegin/End 633-637, writeMapBegin/End
    645-649 and writeListBegin/End, writeSetBegin/End 651-659; writeFieldStop is
    TProtocolBase's, which does nothing. *)
Fixpoint ss_write (t : ty) (v : value) {struct v} : MJ unit :=
  match t, v with
  | TList et, VList l | TSet et, VSet l =>
      writeJSONArrayStart ;;;
      mapM_ (ss_write et) l ;;;
      writeJSONArrayEnd
  | TMap kt vt, VMap l =>
      writeJSONObjectStart ;;;
      mapM_ (fun kv => match kv with
                       | (k, x) => ss_write kt k ;;; ss_write vt x
                       end) l ;;;
      writeJSONObjectEnd
  | TStruct _, VStruct n fs =>
      match nth_error env n with
      | None => raise EAttributeError
      | Some ds =>
          if validate ds fs then
            with_depth
              (writeJSONObjectStart ;;;
               ss_fields n ss_write O fs ds ;;;
               writeJSONObjectEnd)
          else raise (EProtocol TP_UNKNOWN)
      end
  | _, _ => ss_base t v
  end.

(** TSerialization.serialize with a TSimpleJSONProtocolFactory
    (TSerialization.py 27-33). *)
Definition ss_serialize (n : nat) (v : value) : outcome (list byte) :=
  match ss_write (TStruct n) v (mkst j_init [] [] 0) with
  | (Ok _, s) => Ok (out s)
  | (Raise e, _) => Raise e
  | (Diverge, _) => Diverge
  end.

(** A message: writeMessageBegin, 627-628, forgets what was written before and
    writes nothing itself; writeMessageEnd does nothing, 630-631. *)
Definition ss_message (n : nat) (v : value) : MJ unit :=
  resetWriteContext ;;; ss_write (TStruct n) v.

End Simple.
