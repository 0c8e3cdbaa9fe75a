(** Python's strict UTF-8 codec: [bytes(s, 'utf-8')] and
    [b.decode('utf-8')], used by TProtocolBase.writeString/readString
    (lib/py/src/protocol/TProtocol.py 130-131, 193-194).  A Python [str] is a
    list of code points.  No proofs here. *)
From Coq Require Import ZArith List Bool.
From Coq Require Import Init.Byte.
From Verif Require Import Base Bytes.
Import ListNotations.
Open Scope Z_scope.

(** A Unicode scalar value: what strict UTF-8 can encode. *)
Definition scalar (c : Z) : bool :=
  ((0 <=? c) && (c <? 55296)) || ((57344 <=? c) && (c <=? 1114111)).

Definition utf8_char (c : Z) : option (list byte) :=
  if negb (scalar c) then None
  else if c <? 128 then Some [z2b c]
  else if c <? 2048 then
    Some [z2b (192 + c / 64); z2b (128 + c mod 64)]
  else if c <? 65536 then
    Some [z2b (224 + c / 4096); z2b (128 + (c / 64) mod 64);
          z2b (128 + c mod 64)]
  else
    Some [z2b (240 + c / 262144); z2b (128 + (c / 4096) mod 64);
          z2b (128 + (c / 64) mod 64); z2b (128 + c mod 64)].

Fixpoint utf8_encode (s : list Z) : option (list byte) :=
  match s with
  | [] => Some []
  | c :: r =>
      match utf8_char c, utf8_encode r with
      | Some b, Some br => Some (b ++ br)
      | _, _ => None
      end
  end.

Definition in_range (lo hi : Z) (b : byte) : bool :=
  (lo <=? b2z b) && (b2z b <=? hi).

(** Continuation byte. *)
Definition cont (b : byte) : bool := in_range 128 191 b.

(** CPython's decoder with errors='strict': the second byte's range excludes
    overlong forms, surrogates and values above U+10FFFF. *)
Fixpoint utf8_decode (l : list byte) : option (list Z) :=
  let cons_cp c r := match r with Some s => Some (c :: s) | None => None end in
  match l with
  | [] => Some []
  | b0 :: r0 =>
      if b2z b0 <? 128 then cons_cp (b2z b0) (utf8_decode r0)
      else if in_range 194 223 b0 then
        match r0 with
        | b1 :: r1 =>
            if cont b1
            then cons_cp ((b2z b0 - 192) * 64 + (b2z b1 - 128))
                         (utf8_decode r1)
            else None
        | [] => None
        end
      else if in_range 224 239 b0 then
        match r0 with
        | b1 :: b2 :: r2 =>
            if cont b1 && cont b2
               && (negb (b2z b0 =? 224) || (160 <=? b2z b1))
               && (negb (b2z b0 =? 237) || (b2z b1 <=? 159))
            then cons_cp ((b2z b0 - 224) * 4096 + (b2z b1 - 128) * 64
                          + (b2z b2 - 128))
                         (utf8_decode r2)
            else None
        | _ => None
        end
      else if in_range 240 244 b0 then
        match r0 with
        | b1 :: b2 :: b3 :: r3 =>
            if cont b1 && cont b2 && cont b3
               && (negb (b2z b0 =? 240) || (144 <=? b2z b1))
               && (negb (b2z b0 =? 244) || (b2z b1 <=? 143))
            then cons_cp ((b2z b0 - 240) * 262144 + (b2z b1 - 128) * 4096
                          + (b2z b2 - 128) * 64 + (b2z b3 - 128))
                         (utf8_decode r3)
            else None
        | _ => None
        end
      else None
  end.

(** [bytes(s, 'utf-8')]: UnicodeEncodeError on surrogates. *)
Definition encode_utf8 {S} (s : list Z) : SM S (list byte) :=
  match utf8_encode s with
  | Some b => ret b
  | None => raise EUnicodeEncode
  end.

(** [b.decode('utf-8')] *)
Definition decode_utf8 {S} (b : list byte) : SM S (list Z) :=
  match utf8_decode b with
  | Some s => ret s
  | None => raise EUnicodeDecode
  end.
