(** The binary wire format as published: doc/specs/thrift-binary-protocol.md.
    Written from the document, not from the code. *)
From Coq Require Import ZArith List Bool.
From Coq Require Import Init.Byte.
From Verif Require Import Base Bytes Utf8 Proto.
Import ListNotations.
Open Scope Z_scope.

(** "integers are encoded with the most significant byte first" *)
Definition int8 (z : Z) : list byte := [z2b z].
Definition int16 (z : Z) : list byte := [z2b (z / 256); z2b z].
Definition int32 (z : Z) : list byte :=
  [z2b (z / 16777216); z2b (z / 65536); z2b (z / 256); z2b z].
Definition int64 (z : Z) : list byte :=
  int32 (z / 4294967296) ++ int32 z.

(** "The following field-types are used" *)
Definition sb_type (t : ty) : Z :=
  match t with
  | TBool => 2 | TByte => 3 | TDouble => 4 | TI16 => 6 | TI32 => 8 | TI64 => 10
  | TString | TBinary => 11 | TStruct _ => 12 | TMap _ _ => 13 | TSet _ => 14
  | TList _ => 15 | TUuid => 16
  end.

(** Binary: byte length, bytes. *)
Definition sb_binary (b : list byte) : list byte :=
  int32 (Z.of_nat (length b)) ++ b.

(** "Strings are first encoded to UTF-8, and then send as binary." *)
Definition sb_string (s : list Z) : list byte :=
  match utf8_encode s with Some b => sb_binary b | None => [] end.

Fixpoint sb_value (env : schema) (t : ty) (v : value) {struct v} : list byte :=
  match t, v with
  | TBool, VBool true => int8 1
  | TBool, VBool false => int8 0
  | TByte, VInt z => int8 z
  | TI16, VInt z => int16 z
  | TI32, VInt z => int32 z
  | TI64, VInt z => int64 z
  | TDouble, VDouble d => int64 d
  | TString, VStr s => sb_string s
  | TBinary, VBin b => sb_binary b
  | TUuid, VUuid u => u
  | TList et, VList l | TSet et, VSet l =>
      int8 (sb_type et) ++ int32 (Z.of_nat (length l))
      ++ concat (map (sb_value env et) l)
  | TMap kt vt, VMap l =>
      int8 (sb_type kt) ++ int8 (sb_type vt) ++ int32 (Z.of_nat (length l))
      ++ concat (map (fun kv => match kv with
                                | (k, x) => sb_value env kt k
                                            ++ sb_value env vt x
                                end) l)
  | TStruct _, VStruct n fs =>
      match nth_error env n with
      | None => []
      | Some ds =>
          (fix go fs ds :=
             match fs, ds with
             | f :: fs', d :: ds' =>
                 match f with
                 | Some x => int8 (sb_type (f_ty d)) ++ int16 (f_id d)
                             ++ sb_value env (f_ty d) x
                 | None => []
                 end ++ go fs' ds'
             | _, _ => int8 0
             end) fs ds
      end
  | _, _ => []
  end.

(** Message headers, strict and old. *)
Definition sb_message (strict : bool) (name : list Z) (type seqid : Z)
  : list byte :=
  if strict
  then [x80; x01; x00; z2b type] ++ sb_string name ++ int32 seqid
  else sb_string name ++ int8 type ++ int32 seqid.
