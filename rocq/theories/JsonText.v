(** The text formats TJSONProtocol relies on, as Python defines them: decimal
    integers, [int(s, 16)], doubles ('{0:.17g}' and [float]), base64 and UUID
    text.  Texts are lists of code points.  No proofs here. *)
From Coq Require Import ZArith List Bool.
From Coq Require Import Init.Byte.
From Verif Require Import Base Bytes.
Import ListNotations.
Open Scope Z_scope.

(** * Integers *)

Definition is_digit (c : Z) : bool := (48 <=? c) && (c <=? 57).

Fixpoint digits_aux (k : nat) (n : Z) (acc : list Z) : list Z :=
  match k with
  | O => acc
  | S k' => if n <? 10 then (48 + n) :: acc
            else digits_aux k' (n / 10) ((48 + n mod 10) :: acc)
  end.

(** Decimal digits of [n >= 0]; as many steps as [n] has bits are enough. *)
Definition digits (n : Z) : list Z := digits_aux (S (Z.to_nat (Z.log2 n))) n [].

(** [str('{0}'.format(n))] for an int, TJSONProtocol.py 224. *)
Definition int_text (n : Z) : list Z :=
  if n <? 0 then 45 :: digits (- n) else digits n.

Definition digits_val (l : list Z) : Z :=
  fold_left (fun a c => a * 10 + (c - 48)) l 0.

(** [int(numeric)], TJSONProtocol.py 362, for a text made of the characters of
    NUMERIC_CHAR (66) only; None is ValueError.  CPython's limit of 4300 digits
    is not modelled. *)
Definition py_int (l : list Z) : option Z :=
  let nat_ l := match l with
                | [] => None
                | _ => if forallb is_digit l then Some (digits_val l) else None
                end in
  match l with
  | 45 :: r => option_map Z.opp (nat_ r)
  | 43 :: r => nat_ r
  | _ => nat_ l
  end.

(** C isspace *)
Definition is_space (c : Z) : bool := ((9 <=? c) && (c <=? 13)) || (c =? 32).

Fixpoint drop_space (l : list Z) : list Z :=
  match l with
  | c :: r => if is_space c then drop_space r else l
  | [] => []
  end.

Definition hex_digit (c : Z) : option Z :=
  if is_digit c then Some (c - 48)
  else if (97 <=? c) && (c <=? 102) then Some (c - 87)
  else if (65 <=? c) && (c <=? 70) then Some (c - 55)
  else None.

(** Hexadecimal digits with single underscores between them, then spaces.
    [us] says whether an underscore may come next. *)
Fixpoint hex_tail (l : list Z) (acc : Z) (us : bool) : option Z :=
  match l with
  | [] => if us then Some acc else None
  | c :: r =>
      match hex_digit c with
      | Some d => hex_tail r (acc * 16 + d) true
      | None => if (c =? 95) && us then hex_tail r acc false
                else if us && forallb is_space l then Some acc else None
      end
  end.

(** [int(s, 16)] for an ASCII text, TJSONProtocol.py 294. *)
Definition py_int16 (l : list Z) : option Z :=
  let body l := match l with
                | 48 :: 120 :: 95 :: r | 48 :: 88 :: 95 :: r
                | 48 :: 120 :: r | 48 :: 88 :: r => hex_tail r 0 false
                | _ => hex_tail l 0 false
                end in
  match drop_space l with
  | 45 :: r => option_map Z.opp (body r)
  | 43 :: r => body r
  | l' => body l'
  end.

(** * Doubles

    A Python float is modelled by its IEEE 754 bit pattern, sign bit first. *)

Definition DBL_INF := 9218868437227405312. (* 2047 * 2^52 *)
Definition DBL_NAN := 9221120237041090560. (* 2^52 * 2047 + 2^51 *)
Definition DBL_SIGN := 9223372036854775808. (* 2^63 *)

(** Neither infinite nor NaN. *)
Definition finite (b : Z) : bool := b mod DBL_SIGN <? DBL_INF.

(** Round [n / d] to an integer, ties to even. *)
Definition rne (n d : Z) : Z :=
  let q := n / d in
  let r := n mod d in
  if 2 * r <? d then q
  else if d <? 2 * r then q + 1
  else if Z.even q then q else q + 1.

(** The fraction [n * b^e]. *)
Definition scale (b n e : Z) : Z * Z :=
  if 0 <=? e then (n * b ^ e, 1) else (n, b ^ (- e)).

(** Mantissa and exponent: the positive double [a] is [m * 2^q]. *)
Definition dbl_mant (a : Z) : Z * Z :=
  if a <? 2 ^ 52 then (a, -1074)
  else (2 ^ 52 + a mod 2 ^ 52, a / 2 ^ 52 - 1075).

(** [10^e <= n/d < 10^(e+1)] *)
Definition dec_exp_ok (n d e : Z) : bool :=
  let (n1, d1) := scale 10 1 e in
  let (n2, d2) := scale 10 1 (e + 1) in
  (n1 * d <=? n * d1) && (n * d2 <? n2 * d).

Fixpoint zrange (k : nat) (lo : Z) : list Z :=
  match k with O => [] | S k' => lo :: zrange k' (lo + 1) end.

(** The decimal exponent of [n/d]: near the estimate from the binary one, else
    anywhere in the range of doubles. *)
Definition dec_exp (n d : Z) : Z :=
  let est := (Z.log2 n - Z.log2 d) * 30103 / 100000 in
  match find (dec_exp_ok n d)
             (est :: est - 1 :: est + 1 :: zrange 640 (-325)) with
  | Some e => e
  | None => 0
  end.

Fixpoint strip0_rev (l : list Z) : list Z :=
  match l with
  | c :: r => if c =? 48 then strip0_rev r else l
  | [] => []
  end.

(** Without trailing zeros. *)
Definition strip0 (l : list Z) : list Z := rev (strip0_rev (rev l)).

(** A fraction part: a point and the digits, or nothing. *)
Definition point (l : list Z) : list Z :=
  match strip0 l with [] => [] | f => 46 :: f end.

(** The 'g' layout with 17 significant digits: the digits of [k] (there are
    17) with decimal exponent [e]. *)
Definition g_layout (k e : Z) : list Z :=
  let ds := digits k in
  if (-4 <=? e) && (e <? 17) then
    if e <? 0 then
      48 :: 46 :: repeat 48 (Z.to_nat (- e - 1)) ++ strip0 ds
    else
      firstn (Z.to_nat (e + 1)) ds ++ point (skipn (Z.to_nat (e + 1)) ds)
  else
    firstn 1 ds ++ point (skipn 1 ds)
    ++ 101 :: (if e <? 0 then 45 else 43)
    :: (if Z.abs e <? 10 then 48 :: digits (Z.abs e) else digits (Z.abs e)).

(** '{0:.17g}'.format(x), TJSONProtocol.py 584: 17 significant digits,
    correctly rounded. *)
Definition dbl_text (b : Z) : list Z :=
  let sg := if DBL_SIGN <=? b then [45] else [] in
  let a := b mod DBL_SIGN in
  if DBL_INF <? a then [110; 97; 110]
  else if a =? DBL_INF then sg ++ [105; 110; 102]
  else if a =? 0 then sg ++ [48]
  else
    let (m, q) := dbl_mant a in
    let (n, d) := scale 2 m q in
    let e := dec_exp n d in
    let (n1, d1) := scale 10 1 (16 - e) in
    let k := rne (n * n1) (d * d1) in
    sg ++ (if k =? 10 ^ 17 then g_layout (10 ^ 16) (e + 1) else g_layout k e).

(** [2^k <= n/d < 2^(k+1)] *)
Definition bin_exp (n d : Z) : Z :=
  let k := Z.log2 n - Z.log2 d in
  let (a, b) := scale 2 1 k in
  if a * d <=? n * b then k else k - 1.

(** The double nearest to [n/d], ties to even; infinity above the range. *)
Definition dbl_round (n d : Z) : Z :=
  if n =? 0 then 0
  else
    let q := Z.max (bin_exp n d - 52) (-1074) in
    let (a, b) := scale 2 1 (- q) in
    Z.min DBL_INF ((q + 1074) * 2 ^ 52 + rne (n * a) (d * b)).

Fixpoint span_digits (l : list Z) : list Z * list Z :=
  match l with
  | c :: r => if is_digit c
              then let (a, b) := span_digits r in (c :: a, b)
              else ([], l)
  | [] => ([], [])
  end.

(** The exponent part of a decimal literal. *)
Definition exp_part (l : list Z) : option Z :=
  match l with
  | [] => Some 0
  | c :: r =>
      if (c =? 101) || (c =? 69) then py_int r
      else None
  end.

(** Digits, point, digits, exponent, as [digits * 10^exponent]. *)
Definition dec_literal (l : list Z) : option (Z * Z) :=
  let (i, r) := span_digits l in
  let (f, r') := match r with
                 | 46 :: r0 => span_digits r0
                 | _ => ([], r)
                 end in
  match i ++ f with
  | [] => None
  | ds => match exp_part r' with
          | Some e => Some (digits_val ds, e - Z.of_nat (length f))
          | None => None
          end
  end.

Definition lower (c : Z) : Z :=
  if (65 <=? c) && (c <=? 90) then c + 32 else c.

Definition list_eqb (a b : list Z) : bool :=
  if list_eq_dec Z.eq_dec a b then true else false.

(** [float(s)], TJSONProtocol.py 372 and 387; None is ValueError.  Not
    modelled (None here): surrounding white space, underscores between digits
    and non-ASCII digits, which Python also accepts. *)
Definition py_float (l : list Z) : option Z :=
  let abs l :=
    let w := map lower l in
    if list_eqb w [105; 110; 102]
       || list_eqb w [105; 110; 102; 105; 110; 105; 116; 121]
    then Some DBL_INF
    else if list_eqb w [110; 97; 110] then Some DBL_NAN
    else match dec_literal l with
         | Some (n, e) => let (a, b) := scale 10 n e in Some (dbl_round a b)
         | None => None
         end in
  match l with
  | 45 :: r => option_map (fun b => b + DBL_SIGN) (abs r)
  | 43 :: r => abs r
  | _ => abs l
  end.

(** * Base64 *)

(** The alphabet: A-Z a-z 0-9 + / *)
Definition b64_char (v : Z) : Z :=
  if v <? 26 then 65 + v
  else if v <? 52 then 97 + (v - 26)
  else if v <? 62 then 48 + (v - 52)
  else if v =? 62 then 43 else 47.

Definition b64_val (c : Z) : option Z :=
  if (65 <=? c) && (c <=? 90) then Some (c - 65)
  else if (97 <=? c) && (c <=? 122) then Some (c - 97 + 26)
  else if (48 <=? c) && (c <=? 57) then Some (c - 48 + 52)
  else if c =? 43 then Some 62
  else if c =? 47 then Some 63
  else None.

(** [base64.b64encode(binary)], TJSONProtocol.py 235. *)
Fixpoint b64encode (l : list byte) : list Z :=
  match l with
  | [] => []
  | [a] => [b64_char (b2z a / 4); b64_char (b2z a mod 4 * 16); 61; 61]
  | [a; b] => [b64_char (b2z a / 4);
               b64_char (b2z a mod 4 * 16 + b2z b / 16);
               b64_char (b2z b mod 16 * 4); 61]
  | a :: b :: c :: r =>
      b64_char (b2z a / 4)
      :: b64_char (b2z a mod 4 * 16 + b2z b / 16)
      :: b64_char (b2z b mod 16 * 4 + b2z c / 64)
      :: b64_char (b2z c mod 64) :: b64encode r
  end.

(** binascii.a2b_base64 without strict mode: characters outside the alphabet
    are passed over; padding in the third or fourth place of a quadruple ends
    the data; [pos] is the place in the quadruple, [left] the bits left over,
    [pads] the padding characters just seen.  None is binascii.Error. *)
Fixpoint b64_loop (l : list Z) (pos left pads : Z) : option (list byte) :=
  match l with
  | [] => if pos =? 0 then Some [] else None
  | c :: r =>
      if c =? 61 then
        if (2 <=? pos) && (4 <=? pos + (pads + 1)) then Some []
        else b64_loop r pos left (if 2 <=? pos then pads + 1 else pads)
      else
        match b64_val c with
        | None => b64_loop r pos left pads
        | Some v =>
            if pos =? 0 then b64_loop r 1 v 0
            else
              let '(o, p, lf) :=
                if pos =? 1 then (left * 4 + v / 16, 2, v mod 16)
                else if pos =? 2 then (left * 16 + v / 4, 3, v mod 4)
                else (left * 64 + v, 0, 0) in
              option_map (cons (z2b o)) (b64_loop r p lf 0)
        end
  end.

(** [base64.b64decode(string)], TJSONProtocol.py 400: ValueError for non-ASCII
    text or binascii.Error (a ValueError). *)
Definition b64decode (l : list Z) : option (list byte) :=
  if forallb (fun c => c <? 128) l then b64_loop l 0 0 0 else None.

(** * UUIDs *)

Definition hex_char (v : Z) : Z := if v <? 10 then 48 + v else 87 + v.

Definition hex_text (l : list byte) : list Z :=
  flat_map (fun b => [hex_char (b2z b / 16); hex_char (b2z b mod 16)]) l.

(** [str(u)], TJSONProtocol.py 593: 8-4-4-4-12 hexadecimal digits. *)
Definition uuid_text (l : list byte) : list Z :=
  let h := hex_text l in
  firstn 8 h ++ 45 :: firstn 4 (skipn 8 h) ++ 45 :: firstn 4 (skipn 12 h)
  ++ 45 :: firstn 4 (skipn 16 h) ++ 45 :: skipn 20 h.

Fixpoint hex_bytes (l : list Z) : option (list byte) :=
  match l with
  | [] => Some []
  | a :: b :: r =>
      match hex_digit a, hex_digit b, hex_bytes r with
      | Some x, Some y, Some t => Some (z2b (x * 16 + y) :: t)
      | _, _, _ => None
      end
  | _ => None
  end.

(** [uuid.UUID(buff)], TJSONProtocol.py 504: hyphens are dropped, then there
    must be 32 hexadecimal digits; None is ValueError.  The 'urn:', 'uuid:' and
    brace forms uuid.UUID also accepts, and the signs, spaces, underscores and
    non-ASCII digits its call of int(hex, 16) lets through, are not modelled
    (None here). *)
Definition py_uuid (l : list Z) : option (list byte) :=
  let h := filter (fun c => negb (c =? 45)) l in
  if (length h =? 32)%nat then hex_bytes h else None.
