(** Specification vocabulary for comparing the table-driven struct code with
    the generated code. *)
From Coq Require Import ZArith List Bool Sorted.
From Coq Require Import Init.Byte.
From Verif Require Import Base Bytes Utf8 Proto.
Import ListNotations.
Open Scope Z_scope.

(** Fields are listed by increasing id, as the compiler sorts them
    (get_sorted_members), and no id is negative. *)
Definition table_schema (env : schema) : Prop :=
  forall n ds, nth_error env n = Some ds ->
    StronglySorted Z.lt (map f_id ds)
    /\ forall d, In d ds -> 0 <= f_id d <= 32767.

(** What the observer of [checked] reports. *)
Definition OUTSIDE : exn := EProtocol (-1).

(** An observer put around a protocol object.  It passes every call on, and
    raises [OUTSIDE], which no protocol raises, when the input holds a negative
    field id or a container size that is negative or above sys.maxsize. *)
Definition size_seen {X A} (size : A -> Z) (m : M X A) : M X A :=
  a <- m ;;
  if (0 <=? size a) && (size a <=? 9223372036854775807) then ret a
  else raise OUTSIDE.

Definition id_seen {X} (m : M X (Z * Z)) : M X (Z * Z) :=
  '(t, id) <- m ;;
  if (t =? T_STOP) || (0 <=? id) then ret (t, id) else raise OUTSIDE.

Definition checked {X} (P : proto X) : proto X := {|
  writeMessageBegin := writeMessageBegin P;
  writeMessageEnd := writeMessageEnd P;
  writeStructBegin := writeStructBegin P;
  writeStructEnd := writeStructEnd P;
  writeFieldBegin := writeFieldBegin P;
  writeFieldEnd := writeFieldEnd P;
  writeFieldStop := writeFieldStop P;
  writeMapBegin := writeMapBegin P;
  writeMapEnd := writeMapEnd P;
  writeListBegin := writeListBegin P;
  writeListEnd := writeListEnd P;
  writeSetBegin := writeSetBegin P;
  writeSetEnd := writeSetEnd P;
  writeBool := writeBool P;
  writeByte := writeByte P;
  writeI16 := writeI16 P;
  writeI32 := writeI32 P;
  writeI64 := writeI64 P;
  writeDouble := writeDouble P;
  writeString := writeString P;
  writeBinary := writeBinary P;
  writeUuid := writeUuid P;
  readMessageBegin := readMessageBegin P;
  readMessageEnd := readMessageEnd P;
  readStructBegin := readStructBegin P;
  readStructEnd := readStructEnd P;
  readFieldBegin := id_seen (readFieldBegin P);
  readFieldEnd := readFieldEnd P;
  readMapBegin := size_seen snd (readMapBegin P);
  readMapEnd := readMapEnd P;
  readListBegin := size_seen snd (readListBegin P);
  readListEnd := readListEnd P;
  readSetBegin := size_seen snd (readSetBegin P);
  readSetEnd := readSetEnd P;
  readBool := readBool P;
  readByte := readByte P;
  readI16 := readI16 P;
  readI32 := readI32 P;
  readI64 := readI64 P;
  readDouble := readDouble P;
  readString := readString P;
  readBinary := readBinary P;
  readUuid := readUuid P |}.

(** Every struct object inside [v] has the attributes of its class, and the
    required ones are set. *)
Fixpoint complete (env : schema) (v : value) : bool :=
  match v with
  | VList l | VSet l => forallb (complete env) l
  | VMap l =>
      forallb (fun kv => match kv with
                         | (k, x) => complete env k && complete env x
                         end) l
  | VStruct n fs =>
      match nth_error env n with
      | None => true
      | Some ds =>
          (length fs =? length ds)%nat && validate ds fs
          && forallb (fun f => match f with
                               | Some x => complete env x
                               | None => true
                               end) fs
      end
  | _ => true
  end.
