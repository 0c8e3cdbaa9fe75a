(** The compact wire format as published: doc/specs/thrift-compact-protocol.md.
    Written from the document, not from the code. *)
From Coq Require Import ZArith List Bool.
From Coq Require Import Init.Byte.
From Verif Require Import Base Bytes Utf8 Proto.
Import ListNotations.
Open Scope Z_scope.

(** "0 maps to 0, -1 to 1, 1 to 2, -2 to 3" *)
Definition zigzag (n : Z) : Z := if 0 <=? n then 2 * n else - 2 * n - 1.

(** "encoded 7 bits at a time, starting from the LSB ... top bit set if it is
    not the last byte".  [k] bounds the number of bytes. *)
Fixpoint uleb (k : nat) (n : Z) : list byte :=
  match k with
  | O => []
  | S k' => if n <? 128 then [z2b n]
            else z2b (128 + n mod 128) :: uleb k' (n / 128)
  end.

(** Ten groups of seven bits hold any 64-bit number. *)
Definition varint (n : Z) : list byte := uleb 10 n.

(** Field types and element types; a boolean element type is sent as 1. *)
Definition sc_type (t : ty) : Z :=
  match t with
  | TBool => 1 | TByte => 3 | TI16 => 4 | TI32 => 5 | TI64 => 6 | TDouble => 7
  | TString | TBinary => 8 | TList _ => 9 | TSet _ => 10 | TMap _ _ => 11
  | TStruct _ => 12 | TUuid => 13
  end.

Definition sc_binary (b : list byte) : list byte :=
  varint (Z.of_nat (length b)) ++ b.

Definition sc_string (s : list Z) : list byte :=
  match utf8_encode s with Some b => sc_binary b | None => [] end.

(** "IEEE 754 format in little-endian byte order (8 bytes)" *)
Definition sc_double (d : Z) : list byte :=
  [z2b d; z2b (d / 2 ^ 8); z2b (d / 2 ^ 16); z2b (d / 2 ^ 24);
   z2b (d / 2 ^ 32); z2b (d / 2 ^ 40); z2b (d / 2 ^ 48); z2b (d / 2 ^ 56)].

(** Short form for deltas 1 to 15, else long form. *)
Definition sc_field (prev id tc : Z) : list byte :=
  if (1 <=? id - prev) && (id - prev <=? 15)
  then [z2b (16 * (id - prev) + tc)]
  else z2b tc :: varint (zigzag id).

Definition sc_list (tc n : Z) : list byte :=
  if n <=? 14 then [z2b (16 * n + tc)] else z2b (240 + tc) :: varint n.

Definition sc_map (kc vc n : Z) : list byte :=
  if n =? 0 then [x00] else varint n ++ [z2b (16 * kc + vc)].

(** Values outside field headers. *)
Fixpoint sc_value (env : schema) (t : ty) (v : value) {struct v} : list byte :=
  match t, v with
  | TBool, VBool true => [x01]
  | TBool, VBool false => [x02]
  | TByte, VInt z => [z2b z]
  | TI16, VInt z | TI32, VInt z | TI64, VInt z => varint (zigzag z)
  | TDouble, VDouble d => sc_double d
  | TString, VStr s => sc_string s
  | TBinary, VBin b => sc_binary b
  | TUuid, VUuid u => u
  | TList et, VList l | TSet et, VSet l =>
      sc_list (sc_type et) (Z.of_nat (length l))
      ++ concat (map (sc_value env et) l)
  | TMap kt vt, VMap l =>
      sc_map (sc_type kt) (sc_type vt) (Z.of_nat (length l))
      ++ concat (map (fun kv => match kv with
                                | (k, x) => sc_value env kt k
                                            ++ sc_value env vt x
                                end) l)
  | TStruct _, VStruct n fs =>
      match nth_error env n with
      | None => []
      | Some ds =>
          (fix go prev fs ds :=
             match fs, ds with
             | f :: fs', d :: ds' =>
                 match f with
                 | Some x =>
                     match f_ty d, x with
                     | TBool, VBool b => sc_field prev (f_id d) (if b then 1 else 2)
                     | t', _ => sc_field prev (f_id d) (sc_type t')
                                ++ sc_value env t' x
                     end ++ go (f_id d) fs' ds'
                 | None => go prev fs' ds'
                 end
             | _, _ => [x00]
             end) 0 fs ds
      end
  | _, _ => []
  end.

(** Message header; the sequence id is its 32-bit two's complement pattern. *)
Definition sc_message (name : list Z) (type seqid : Z) : list byte :=
  [x82; z2b (32 * type + 1)] ++ varint (seqid mod 2 ^ 32) ++ sc_string name.
