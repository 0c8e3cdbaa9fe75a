(** The header format as published: doc/specs/HeaderFormat.md, and the first
    bytes by which older clients are told apart (doc/specs/thrift-rpc.md,
    thrift-binary-protocol.md, thrift-compact-protocol.md).  Written from the
    documents, not from the code. *)
From Coq Require Import ZArith List Bool.
From Coq Require Import Init.Byte.
From Verif Require Import Base Bytes SpecCompact.
Import ListNotations.
Open Scope Z_scope.
Open Scope list_scope.

(** "varstrings (varint16 length plus no-trailing-null string)" *)
Definition sh_string (b : list byte) : list byte := varint (Z.of_nat (length b)) ++ b.

Definition sh_pair (kv : list byte * list byte) : list byte :=
  sh_string (fst kv) ++ sh_string (snd kv).

(** "INFO_KEYVALUE 0x01 - varint32 number of headers - key/value pairs" *)
Definition sh_info (hs : list (list byte * list byte)) : list byte :=
  match hs with
  | [] => []
  | _ => varint 1 ++ varint (Z.of_nat (length hs)) ++ flat_map sh_pair hs
  end.

(** "PROTOCOL ID (varint), NUM TRANSFORMS (varint), TRANSFORM 0 ID (varint) ..." *)
Definition sh_section (proto : Z) (ids : list Z) (hs : list (list byte * list byte))
  : list byte :=
  varint proto ++ varint (Z.of_nat (length ids)) ++ flat_map varint ids ++ sh_info hs.

(** "Header will be padded out to next 4-byte boundary with 0x00." *)
Definition sh_pad (n : nat) : list byte :=
  match (n mod 4)%nat with
  | 0%nat => []
  | 1%nat => [x00; x00; x00]
  | 2%nat => [x00; x00]
  | _ => [x00]
  end.
Definition padded (l : list byte) : list byte := l ++ sh_pad (length l).

(** What follows the length field. *)
Definition sh_body (flags seq proto : Z) (ids : list Z) (hs : list (list byte * list byte))
    (payload : list byte) : list byte :=
  let h := padded (sh_section proto ids hs) in
  [x0f; xff] ++ be_bytes 2 flags ++ be_bytes 4 seq
  ++ be_bytes 2 (Z.of_nat (length h) / 4) ++ h ++ payload.

Definition sh_frame (flags seq proto : Z) (ids : list Z) (hs : list (list byte * list byte))
    (payload : list byte) : list byte :=
  let b := sh_body flags seq proto ids hs payload in
  be_bytes 4 (Z.of_nat (length b)) ++ b.

(** The first bytes of a strict binary message, a compact message and a header. *)
Definition binary_start (l : list byte) : Prop := exists r, l = x80 :: x01 :: r.
Definition compact_start (l : list byte) : Prop :=
  exists b r, l = x82 :: b :: r /\ b2z b mod 32 = 1.
Definition header_start (l : list byte) : Prop := exists r, l = x0f :: xff :: r.
