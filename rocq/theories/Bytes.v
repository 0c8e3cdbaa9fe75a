(** Bytes and fixed-width integers: the part of Python's [struct] module the
    library uses.  No proofs here. *)
From Coq Require Import ZArith List Bool.
From Coq Require Import Init.Byte.
From Coq Require Strings.Byte.
From Verif Require Import Base.
Import ListNotations.
Open Scope Z_scope.

(** The number a byte stands for, 0..255 ([ord]). *)
Definition b2z (b : byte) : Z := Z.of_N (Byte.to_N b).

(** The byte with value [z mod 256]. *)
Definition z2b (z : Z) : byte :=
  match Byte.of_N (Z.to_N (z mod 256)) with
  | Some b => b
  | None => x00
  end.

(** [n] bytes of [z mod 256^n], least significant first. *)
Fixpoint le_bytes (n : nat) (z : Z) : list byte :=
  match n with
  | O => []
  | S k => z2b z :: le_bytes k (z / 256)
  end.

(** Most significant first. *)
Definition be_bytes (n : nat) (z : Z) : list byte := rev (le_bytes n z).

Fixpoint le_val (l : list byte) : Z :=
  match l with
  | [] => 0
  | b :: r => b2z b + 256 * le_val r
  end.

Definition be_val (l : list byte) : Z := le_val (rev l).

(** Two's complement reading of an unsigned [n]-byte number. *)
Definition to_signed (n : nat) (u : Z) : Z :=
  if u <? 2 ^ (8 * Z.of_nat n - 1) then u else u - 2 ^ (8 * Z.of_nat n).

(** [struct.pack('!b'/'!h'/'!i'/'!q', z)] for [n] = 1, 2, 4, 8: raises
    struct.error when [z] is out of range. *)
Definition pack_signed {S} (n : nat) (z : Z) : SM S (list byte) :=
  if (- 2 ^ (8 * Z.of_nat n - 1) <=? z) && (z <? 2 ^ (8 * Z.of_nat n - 1))
  then ret (be_bytes n z) else raise EStructError.

(** [struct.pack('!B'/'!H'/'!I', z)]. *)
Definition pack_unsigned {S} (n : nat) (z : Z) : SM S (list byte) :=
  if (0 <=? z) && (z <? 2 ^ (8 * Z.of_nat n))
  then ret (be_bytes n z) else raise EStructError.

(** [struct.unpack] of a buffer of the right length. *)
Definition unpack_signed (n : nat) (l : list byte) : Z := to_signed n (be_val l).
Definition unpack_unsigned (l : list byte) : Z := be_val l.

Definition bytes_eqb (a b : list byte) : bool :=
  if list_eq_dec Byte.byte_eq_dec a b then true else false.
