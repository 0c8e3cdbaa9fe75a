(** Calls on a protocol object in any order: what TCompactProtocol's state
    machine accepts (TCompactProtocol.py 26-47, 141-442). *)
From Coq Require Import ZArith List Bool.
From Coq Require Import Init.Byte.
From Verif Require Import Base Bytes Utf8 Proto Compact.
Import ListNotations.
Open Scope Z_scope.

(** One call of a method of the protocol API, with its arguments. *)
Inductive call :=
| WMessageBegin (name : list Z) (type seqid : Z) | WMessageEnd
| WStructBegin | WStructEnd
| WFieldBegin (type fid : Z) | WFieldEnd | WFieldStop
| WMapBegin (kt vt size : Z) | WMapEnd
| WListBegin (et size : Z) | WListEnd
| WSetBegin (et size : Z) | WSetEnd
| WBool (b : bool) | WByte (z : Z) | WI16 (z : Z) | WI32 (z : Z) | WI64 (z : Z)
| WDouble (z : Z) | WString (s : list Z) | WBinary (s : list byte) | WUuid (u : list byte)
| RMessageBegin | RMessageEnd | RStructBegin | RStructEnd | RFieldBegin | RFieldEnd
| RMapBegin | RMapEnd | RListBegin | RListEnd | RSetBegin | RSetEnd
| RBool | RByte | RI16 | RI32 | RI64 | RDouble | RString | RBinary | RUuid.

Definition void {S A} (m : SM S A) : SM S unit := m ;;; ret tt.

(** The call made, its result dropped. *)
Definition perform {X} (P : proto X) (c : call) : M X unit :=
  match c with
  | WMessageBegin n t i => writeMessageBegin P n t i
  | WMessageEnd => writeMessageEnd P
  | WStructBegin => writeStructBegin P
  | WStructEnd => writeStructEnd P
  | WFieldBegin t i => writeFieldBegin P t i
  | WFieldEnd => writeFieldEnd P
  | WFieldStop => writeFieldStop P
  | WMapBegin k v n => writeMapBegin P k v n
  | WMapEnd => writeMapEnd P
  | WListBegin e n => writeListBegin P e n
  | WListEnd => writeListEnd P
  | WSetBegin e n => writeSetBegin P e n
  | WSetEnd => writeSetEnd P
  | WBool b => writeBool P b
  | WByte z => writeByte P z
  | WI16 z => writeI16 P z
  | WI32 z => writeI32 P z
  | WI64 z => writeI64 P z
  | WDouble z => writeDouble P z
  | WString s => writeString P s
  | WBinary s => writeBinary P s
  | WUuid u => writeUuid P u
  | RMessageBegin => void (readMessageBegin P)
  | RMessageEnd => readMessageEnd P
  | RStructBegin => readStructBegin P
  | RStructEnd => readStructEnd P
  | RFieldBegin => void (readFieldBegin P)
  | RFieldEnd => readFieldEnd P
  | RMapBegin => void (readMapBegin P)
  | RMapEnd => readMapEnd P
  | RListBegin => void (readListBegin P)
  | RListEnd => readListEnd P
  | RSetBegin => void (readSetBegin P)
  | RSetEnd => readSetEnd P
  | RBool => void (readBool P)
  | RByte => void (readByte P)
  | RI16 => void (readI16 P)
  | RI32 => void (readI32 P)
  | RI64 => void (readI64 P)
  | RDouble => void (readDouble P)
  | RString => void (readString P)
  | RBinary => void (readBinary P)
  | RUuid => void (readUuid P)
  end.

Fixpoint run {X} (P : proto X) (cs : list call) : M X unit :=
  match cs with
  | [] => ret tt
  | c :: r => perform P c ;;; run P r
  end.

(** * What the calls should obey *)

(** The states a call is meant for (the [assert]s and the decorators). *)
Definition allowed (c : call) : list cstate :=
  match c with
  | WMessageBegin _ _ _ | RMessageBegin | RMessageEnd => [CLEAR]
  | WMessageEnd => [VALUE_WRITE]
  | WStructBegin => [CLEAR; CONTAINER_WRITE; VALUE_WRITE]
  | WStructEnd | WFieldBegin _ _ => [FIELD_WRITE]
  | WFieldEnd => [VALUE_WRITE; BOOL_WRITE]
  | WFieldStop => [CLEAR; FIELD_WRITE; VALUE_WRITE; CONTAINER_WRITE; BOOL_WRITE;
                   FIELD_READ; CONTAINER_READ; VALUE_READ; BOOL_READ]
  | WMapEnd | WListEnd | WSetEnd => [CONTAINER_WRITE]
  | WBool _ => [BOOL_WRITE; CONTAINER_WRITE]
  | WMapBegin _ _ _ | WListBegin _ _ | WSetBegin _ _
  | WByte _ | WI16 _ | WI32 _ | WI64 _ | WDouble _ | WString _ | WBinary _ | WUuid _ =>
      [VALUE_WRITE; CONTAINER_WRITE]
  | RStructBegin => [CLEAR; CONTAINER_READ; VALUE_READ]
  | RStructEnd | RFieldBegin => [FIELD_READ]
  | RFieldEnd => [VALUE_READ; BOOL_READ]
  | RMapEnd | RListEnd | RSetEnd => [CONTAINER_READ]
  | RBool => [BOOL_READ; CONTAINER_READ]
  | RMapBegin | RListBegin | RSetBegin
  | RByte | RI16 | RI32 | RI64 | RDouble | RString | RBinary | RUuid =>
      [VALUE_READ; CONTAINER_READ]
  end.

(** Brackets: structs and containers, being written or read. *)
Inductive bracket := SW | SR | CW | CR.

Definition opens (c : call) : option bracket :=
  match c with
  | WStructBegin => Some SW
  | RStructBegin => Some SR
  | WMapBegin _ _ _ | WListBegin _ _ | WSetBegin _ _ => Some CW
  | RMapBegin | RListBegin | RSetBegin => Some CR
  | _ => None
  end.

Definition closes (c : call) : option bracket :=
  match c with
  | WStructEnd => Some SW
  | RStructEnd => Some SR
  | WMapEnd | WListEnd | WSetEnd => Some CW
  | RMapEnd | RListEnd | RSetEnd => Some CR
  | _ => None
  end.

Definition bracket_eqb (a b : bracket) : bool :=
  match a, b with
  | SW, SW | SR, SR | CW, CW | CR, CR => true
  | _, _ => false
  end.

(** The brackets left open by a list of calls, innermost first; [None] when an
    end does not match the innermost open bracket. *)
Fixpoint nest (k : list bracket) (cs : list call) : option (list bracket) :=
  match cs with
  | [] => Some k
  | c :: r =>
      match opens c, closes c with
      | Some b, _ => nest (b :: k) r
      | None, Some b =>
          match k with
          | b' :: k' => if bracket_eqb b b' then nest k' r else None
          | [] => None
          end
      | None, None => nest k r
      end
  end.

(** What may stand directly inside the innermost open bracket.  Outside any
    bracket nothing is asked here. *)
Definition place (k : list bracket) (c : call) : bool :=
  match k, c with
  | [], _ => true
  | _, WFieldStop => true
  | SW :: _, (WFieldBegin _ _ | WFieldEnd | WMessageEnd | WMessageBegin _ _ _ | WStructBegin
     | WStructEnd | WMapBegin _ _ _ | WListBegin _ _ | WSetBegin _ _ | WBool _ | WByte _
     | WI16 _ | WI32 _ | WI64 _ | WDouble _ | WString _ | WBinary _ | WUuid _
     | RMessageBegin | RStructBegin) => true
  | CW :: _, (WStructBegin | WMapBegin _ _ _ | WListBegin _ _ | WSetBegin _ _ | WBool _
     | WByte _ | WI16 _ | WI32 _ | WI64 _ | WDouble _ | WString _ | WBinary _ | WUuid _
     | WMapEnd | WListEnd | WSetEnd) => true
  | SR :: _, (RFieldBegin | RFieldEnd | RStructBegin | RStructEnd | RMapBegin | RListBegin
     | RSetBegin | RBool | RByte | RI16 | RI32 | RI64 | RDouble | RString | RBinary | RUuid)
      => true
  | CR :: _, (RStructBegin | RMapBegin | RListBegin | RSetBegin | RBool | RByte | RI16 | RI32
     | RI64 | RDouble | RString | RBinary | RUuid | RMapEnd | RListEnd | RSetEnd) => true
  | _, _ => false
  end.

Fixpoint places (k : list bracket) (cs : list call) : bool :=
  match cs with
  | [] => true
  | c :: r =>
      place k c
      && match opens c, closes c with
         | Some b, _ => places (b :: k) r
         | None, Some _ => places (tl k) r
         | None, None => places k r
         end
  end.
