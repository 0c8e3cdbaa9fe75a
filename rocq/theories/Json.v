(** TJSONProtocol (lib/py/src/protocol/TJSONProtocol.py), on a TMemoryBuffer.
    Line numbers below are lines of that file.  No proofs here. *)
From Coq Require Import ZArith List Bool.
From Coq Require Import Init.Byte.
From Verif Require Import Base Bytes Utf8 Proto Compact JsonText.
Import ListNotations.
Open Scope Z_scope.

(** VERSION, 32, and the punctuation, 34-41. *)
Definition J_VERSION := 1.
Definition COMMA := z2b 44.
Definition COLON := z2b 58.
Definition LBRACE := z2b 123.
Definition RBRACE := z2b 125.
Definition LBRACKET := z2b 91.
Definition RBRACKET := z2b 93.
Definition QUOTE := z2b 34.

(** ESCAPE_CHAR_VALS, 46-55: the characters written with a backslash, and the
    character written after it. *)
Definition escape_char (c : Z) : option Z :=
  if c =? 34 then Some 34
  else if c =? 92 then Some 92
  else if c =? 8 then Some 98
  else if c =? 12 then Some 102
  else if c =? 10 then Some 110
  else if c =? 13 then Some 114
  else if c =? 9 then Some 116
  else None.

(** ESCAPE_CHARS, 56-65. *)
Definition unescape_char (c : Z) : option Z :=
  if c =? 34 then Some 34
  else if c =? 92 then Some 92
  else if c =? 98 then Some 8
  else if c =? 102 then Some 12
  else if c =? 110 then Some 10
  else if c =? 114 then Some 13
  else if c =? 116 then Some 9
  else if c =? 47 then Some 47
  else None.

(** NUMERIC_CHAR, 66: + - . 0-9 E e *)
Definition numeric (b : byte) : bool :=
  let c := b2z b in
  is_digit c || (c =? 43) || (c =? 45) || (c =? 46) || (c =? 69) || (c =? 101).

(** CTYPES, 69-82. *)
Definition CTYPES : list (Z * list Z) :=
  [(T_BOOL, [116; 102]); (T_BYTE, [105; 56]); (T_I16, [105; 49; 54]);
   (T_I32, [105; 51; 50]); (T_I64, [105; 54; 52]);
   (T_DOUBLE, [100; 98; 108]); (T_STRING, [115; 116; 114]);
   (T_STRUCT, [114; 101; 99]); (T_LIST, [108; 115; 116]);
   (T_SET, [115; 101; 116]); (T_MAP, [109; 97; 112]);
   (T_UUID, [117; 105; 100])].

(** [CTYPES[ttype]] *)
Definition ctype {S} (t : Z) : SM S (list Z) :=
  match find (fun p => fst p =? t) CTYPES with
  | Some (_, n) => ret n
  | None => raise EKeyError
  end.

(** [JTYPES[name]], 84-86. *)
Definition jtype {S} (n : list Z) : SM S Z :=
  match find (fun p => list_eqb (snd p) n) CTYPES with
  | Some (t, _) => ret t
  | None => raise EKeyError
  end.

(** The context objects, 89-150, with their [first] and [colon] attributes. *)
Inductive ctx :=
| CBase
| CList (first : bool)
| CPair (first colon : bool).

(** The attributes of the protocol object: contextStack, last element first
    (182-211: [self.context] is its last element, or a base context when the
    stack is empty), and the look-ahead of the LookaheadReader (153-171):
    [Some data] when hasData. *)
Record jst := mkj { stack : list ctx; ahead : option (list byte) }.

Definition MJ := M jst.

(** resetReadContext in __init__, 183-184. *)
Definition j_init : jst := mkj [CBase] None.

Definition get_stack : MJ (list ctx) := x <- get_px ;; ret (stack x).
Definition set_stack (c : list ctx) : MJ unit :=
  x <- get_px ;; set_px (mkj c (ahead x)).

Definition top (c : list ctx) : ctx := match c with t :: _ => t | [] => CBase end.

(** What [self.context] becomes; the base context made for an empty stack has
    nothing to remember. *)
Definition set_top (t : ctx) : MJ unit :=
  c <- get_stack ;;
  match c with
  | _ :: r => set_stack (t :: r)
  | [] => ret tt
  end.

(** doIO of the three contexts, 95-96, 113-117, 132-138. *)
Definition doIO (f : byte -> MJ unit) : MJ unit :=
  c <- get_stack ;;
  match top c with
  | CBase => ret tt
  | CList true => set_top (CList false)
  | CList false => f COMMA
  | CPair true _ => set_top (CPair false true)
  | CPair false colon =>
      f (if colon then COLON else COMMA) ;;; set_top (CPair false (negb colon))
  end.

(** escapeNum, 104-105, 146-147. *)
Definition escapeNum : MJ bool :=
  c <- get_stack ;;
  ret match top c with CPair _ colon => colon | _ => false end.

(** pushContext, 202-204. *)
Definition pushContext (t : ctx) : MJ unit :=
  c <- get_stack ;; set_stack (t :: c).

(** popContext, 206-211. *)
Definition popContext : MJ unit :=
  c <- get_stack ;;
  match c with
  | _ :: r => set_stack r
  | [] => raise EIndexError
  end.

(** * Writing *)

Definition jwrite (l : list byte) : MJ unit := twrite l.

(** context.write *)
Definition ctx_write : MJ unit := doIO (fun b => jwrite [b]).

(** The loop of writeJSONString, 216-218. *)
Definition escape (s : list Z) : list Z :=
  flat_map (fun c => match escape_char c with
                     | Some e => [92; e]
                     | None => [c]
                     end) s.

(** writeJSONString, 213-220. *)
Definition writeJSONString (s : list Z) : MJ unit :=
  ctx_write ;;;
  b <- encode_utf8 (34 :: escape s ++ [34]) ;;
  jwrite b.

(** [.encode('ascii')] of a text known to be ASCII. *)
Definition ascii (l : list Z) : list byte := map z2b l.

(** writeJSONNumber, 222-230; [text] is the formatted number. *)
Definition writeJSONNumber (text : list Z) : MJ unit :=
  ctx_write ;;;
  q <- escapeNum ;;
  if q : bool then jwrite [QUOTE] ;;; jwrite (ascii text) ;;; jwrite [QUOTE]
  else jwrite (ascii text).

(** writeJSONBase64, 232-236. *)
Definition writeJSONBase64 (b : list byte) : MJ unit :=
  ctx_write ;;;
  jwrite [QUOTE] ;;; jwrite (ascii (b64encode b)) ;;; jwrite [QUOTE].

(** 238-254 *)
Definition writeJSONObjectStart : MJ unit :=
  ctx_write ;;; jwrite [LBRACE] ;;; pushContext (CPair true true).
Definition writeJSONObjectEnd : MJ unit := popContext ;;; jwrite [RBRACE].
Definition writeJSONArrayStart : MJ unit :=
  ctx_write ;;; jwrite [LBRACKET] ;;; pushContext (CList true).
Definition writeJSONArrayEnd : MJ unit := popContext ;;; jwrite [RBRACKET].

(** resetWriteContext, 194-196. *)
Definition resetWriteContext : MJ unit := set_stack [CBase].

(** writeMessageBegin, 507-513, writeMessageEnd 515-516. *)
Definition j_writeMessageBegin (name : list Z) (type seqid : Z) : MJ unit :=
  resetWriteContext ;;;
  writeJSONArrayStart ;;;
  writeJSONNumber (int_text J_VERSION) ;;;
  writeJSONString name ;;;
  writeJSONNumber (int_text type) ;;;
  writeJSONNumber (int_text seqid).
Definition j_writeMessageEnd : MJ unit := writeJSONArrayEnd.

(** 518-533 *)
Definition j_writeStructBegin : MJ unit := writeJSONObjectStart.
Definition j_writeStructEnd : MJ unit := writeJSONObjectEnd.
Definition j_writeFieldBegin (ttype id : Z) : MJ unit :=
  writeJSONNumber (int_text id) ;;;
  writeJSONObjectStart ;;;
  n <- ctype ttype ;; writeJSONString n.
Definition j_writeFieldEnd : MJ unit := writeJSONObjectEnd.
Definition j_writeFieldStop : MJ unit := ret tt.

(** 535-544 *)
Definition j_writeMapBegin (ktype vtype size : Z) : MJ unit :=
  writeJSONArrayStart ;;;
  kn <- ctype ktype ;; writeJSONString kn ;;;
  vn <- ctype vtype ;; writeJSONString vn ;;;
  writeJSONNumber (int_text size) ;;;
  writeJSONObjectStart.
Definition j_writeMapEnd : MJ unit := writeJSONObjectEnd ;;; writeJSONArrayEnd.

(** 546-560: writeListBegin and writeSetBegin have the same body. *)
Definition j_writeListBegin (etype size : Z) : MJ unit :=
  writeJSONArrayStart ;;;
  n <- ctype etype ;; writeJSONString n ;;;
  writeJSONNumber (int_text size).
Definition j_writeListEnd : MJ unit := writeJSONArrayEnd.

(** 562-593 *)
Definition j_writeBool (b : bool) : MJ unit :=
  writeJSONNumber (int_text (if b then 1 else 0)).
Definition j_writeInt (bits z : Z) : MJ unit :=
  checkIntegerLimits z bits ;;; writeJSONNumber (int_text z).
Definition j_writeDouble (d : Z) : MJ unit := writeJSONNumber (dbl_text d).
Definition j_writeUuid (u : list byte) : MJ unit := writeJSONString (uuid_text u).

(** * Reading *)

(** LookaheadReader.read, 160-165. *)
Definition rd : MJ (list byte) :=
  x <- get_px ;;
  match ahead x with
  | Some d => set_px (mkj (stack x) None) ;;; ret d
  | None => tread 1
  end.

(** LookaheadReader.peek, 167-171. *)
Definition peek : MJ (list byte) :=
  x <- get_px ;;
  match ahead x with
  | Some d => ret d
  | None =>
      d <- tread 1 ;;
      set_px (mkj (stack x) (Some d)) ;;; ret d
  end.

(** [ord(character)] of what read or peek returned: TypeError for b''. *)
Definition ord {S} (d : list byte) : SM S Z :=
  match d with
  | [b] => ret (b2z b)
  | _ => raise ETypeError
  end.

Definition is_byte (d : list byte) (b : byte) : bool :=
  match d with [c] => b2z c =? b2z b | _ => false end.

(** readJSONSyntaxChar, 256-260. *)
Definition readJSONSyntaxChar (b : byte) : MJ unit :=
  d <- rd ;;
  if is_byte d b then ret tt else raise (EProtocol TP_INVALID_DATA).

(** context.read *)
Definition ctx_read : MJ unit := doIO readJSONSyntaxChar.

Definition is_high (c : Z) : bool := (55296 <=? c) && (c <=? 56319).
Definition is_low (c : Z) : bool := (56320 <=? c) && (c <=? 57343).

(** _toChar with a low surrogate, 272-274. *)
Definition to_char (high low : Z) : Z :=
  65536 + Z.land high 1023 * 1024 + Z.land low 1023.

(** [chr(c)]: ValueError outside the range of code points. *)
Definition chr {S} (c : Z) : SM S Z :=
  if (0 <=? c) && (c <=? 1114111) then ret c else raise EValueError.

(** [b.decode('ascii')] *)
Definition decode_ascii {S} (b : list byte) : SM S (list Z) :=
  if forallb (fun c => b2z c <? 128) b then ret (map b2z b)
  else raise EUnicodeDecode.

Section Json.
(** string_length_limit, 176, 182. *)
Variable limit : option Z.

(** The run of bytes above 0x7f, 322-327.  Fuel: one unit per byte. *)
Fixpoint run_loop (fuel : nat) (acc : list byte) (len : Z)
  : MJ (list byte * Z) :=
  match fuel with
  | O => diverge
  | S k =>
      d <- peek ;;
      c <- ord d ;;
      if 128 <=? c then
        d' <- rd ;;
        check_length limit (len + 1) ;;;
        run_loop k (acc ++ d') (len + 1)
      else ret (acc, len)
  end.

(** The loop of readJSONString, 283-334.  [hs] is highSurrogate, [acc] the
    joined [string].  [elif character in ESCAPE_CHAR_VALS] (317) compares bytes
    with the str keys of that dictionary and never holds.  Fuel: one unit per
    turn. *)
Fixpoint string_loop (fuel : nat) (hs : option Z) (acc : list Z) (len : Z)
  : MJ (list Z) :=
  match fuel with
  | O => diverge
  | S k =>
      let next hs' (cs : list Z) len' :=
        check_length limit len' ;;;
        match hs' with
        | Some _ => raise (EProtocol TP_INVALID_DATA)
        | None => string_loop k None (acc ++ cs) len'
        end in
      d <- rd ;;
      if is_byte d QUOTE then ret acc
      else
        c <- ord d ;;
        if c =? 92 then
          d1 <- rd ;;
          c1 <- ord d1 ;;
          if c1 =? 117 then
            h <- tread 4 ;;
            t <- decode_ascii h ;;
            match py_int16 t with
            | None => raise EValueError
            | Some u =>
                if is_high u then
                  match hs with
                  | Some _ => raise (EProtocol TP_INVALID_DATA)
                  | None => string_loop k (Some u) acc (len + 6)
                  end
                else if is_low u then
                  match hs with
                  | None => raise (EProtocol TP_INVALID_DATA)
                  | Some h => next None [to_char h u] (len + 6)
                  end
                else ch <- chr u ;; next hs [ch] (len + 6)
            end
          else
            match unescape_char c1 with
            | None => raise (EProtocol TP_INVALID_DATA)
            | Some e => next hs [e] (len + 2)
            end
        else
          s <- (fun s : st jst => (Ok (length (inp s)), s)) ;;
          '(run, len') <- run_loop (S (S s)) d (len + 1) ;;
          cs <- decode_utf8 run ;;
          next hs cs len'
  end.

(** readJSONString, 276-335.  The fuel is enough for every byte there is. *)
Definition readJSONString (skipContext : bool) : MJ (list Z) :=
  (if skipContext then ret tt else ctx_read) ;;;
  readJSONSyntaxChar QUOTE ;;;
  n <- (fun s : st jst => (Ok (length (inp s)), s)) ;;
  string_loop (S (S n)) None [] 0.

(** readJSONNumericChars, 344-354.  At the end of input peek and read return
    b'', which [NUMERIC_CHAR.find] finds at position 0: the loop goes on, with
    [length] growing by one each turn, until the limit is exceeded, or for
    ever. *)
Fixpoint numeric_loop (fuel : nat) (acc : list byte) (len : Z)
  : MJ (list byte) :=
  match fuel with
  | O => diverge
  | S k =>
      d <- peek ;;
      match d with
      | [] =>
          rd ;;;
          match limit with
          | Some _ => raise (ETransport TT_SIZE_LIMIT)
          | None => diverge
          end
      | b :: _ =>
          if numeric b then
            d' <- rd ;;
            check_length limit (len + 1) ;;;
            numeric_loop k (acc ++ d') (len + 1)
          else ret acc
      end
  end.

Definition readJSONNumericChars : MJ (list Z) :=
  n <- (fun s : st jst => (Ok (length (inp s)), s)) ;;
  b <- numeric_loop (S (S n)) [] 0 ;;
  ret (map b2z b).

(** readJSONQuotes, 340-342. *)
Definition readJSONQuotes : MJ unit :=
  q <- escapeNum ;;
  if q : bool then readJSONSyntaxChar QUOTE else ret tt.

(** readJSONInteger, 356-365. *)
Definition readJSONInteger : MJ Z :=
  ctx_read ;;;
  readJSONQuotes ;;;
  n <- readJSONNumericChars ;;
  readJSONQuotes ;;;
  match py_int n with
  | Some z => ret z
  | None => raise (EProtocol TP_INVALID_DATA)
  end.

(** [float(s)] with ValueError turned into TProtocolException. *)
Definition to_float (s : list Z) : MJ Z :=
  match py_float s with
  | Some d => ret d
  | None => raise (EProtocol TP_INVALID_DATA)
  end.

(** readJSONDouble, 367-390.  [self.context.escapeNum is False] (373) compares
    a method with False and never holds. *)
Definition readJSONDouble : MJ Z :=
  ctx_read ;;;
  d <- peek ;;
  if is_byte d QUOTE then
    s <- readJSONString true ;; to_float s
  else
    q <- escapeNum ;;
    (if q : bool then readJSONSyntaxChar QUOTE else ret tt) ;;;
    n <- readJSONNumericChars ;; to_float n.

(** readJSONBase64, 392-400. *)
Definition readJSONBase64 : MJ (list byte) :=
  s <- readJSONString false ;;
  let m := Z.of_nat (length s) mod 4 in
  let s' := if m =? 0 then s else s ++ repeat 61 (Z.to_nat (4 - m)) in
  match b64decode s' with
  | Some b => ret b
  | None => raise EValueError
  end.

(** 402-418 *)
Definition readJSONObjectStart : MJ unit :=
  ctx_read ;;; readJSONSyntaxChar LBRACE ;;; pushContext (CPair true true).
Definition readJSONObjectEnd : MJ unit := readJSONSyntaxChar RBRACE ;;; popContext.
Definition readJSONArrayStart : MJ unit :=
  ctx_read ;;; readJSONSyntaxChar LBRACKET ;;; pushContext (CList true).
Definition readJSONArrayEnd : MJ unit := readJSONSyntaxChar RBRACKET ;;; popContext.

(** readMessageBegin, 423-432 (resetReadContext 198-200 drops the look-ahead),
    readMessageEnd 434-435. *)
Definition j_readMessageBegin : MJ (list Z * Z * Z) :=
  set_px j_init ;;;
  readJSONArrayStart ;;;
  v <- readJSONInteger ;;
  if negb (v =? J_VERSION) then raise (EProtocol TP_BAD_VERSION)
  else
    name <- readJSONString false ;;
    type <- readJSONInteger ;;
    seqid <- readJSONInteger ;;
    ret (name, type, seqid).
Definition j_readMessageEnd : MJ unit := readJSONArrayEnd.

(** readFieldBegin, 443-453; readStructBegin/End 437-441 and readFieldEnd
    455-456 are readJSONObjectStart/End. *)
Definition j_readFieldBegin : MJ (Z * Z) :=
  d <- peek ;;
  if is_byte d RBRACE then ret (T_STOP, 0)
  else
    id <- readJSONInteger ;;
    readJSONObjectStart ;;;
    n <- readJSONString false ;;
    t <- jtype n ;;
    ret (t, id).

(** readMapBegin, 458-464, readMapEnd 466-468. *)
Definition j_readMapBegin : MJ (Z * Z * Z) :=
  readJSONArrayStart ;;;
  kn <- readJSONString false ;;
  kt <- jtype kn ;;
  vn <- readJSONString false ;;
  vt <- jtype vn ;;
  size <- readJSONInteger ;;
  readJSONObjectStart ;;;
  ret (kt, vt, size).
Definition j_readMapEnd : MJ unit := readJSONObjectEnd ;;; readJSONArrayEnd.

(** readCollectionBegin, 470-476, readCollectionEnd 478-481. *)
Definition j_readListBegin : MJ (Z * Z) :=
  readJSONArrayStart ;;;
  n <- readJSONString false ;;
  t <- jtype n ;;
  size <- readJSONInteger ;;
  ret (t, size).

(** readBool, 483-484. *)
Definition j_readBool : MJ bool :=
  z <- readJSONInteger ;; ret (negb (z =? 0)).

(** readUuid, 502-505. *)
Definition j_readUuid : MJ (list byte) :=
  s <- readJSONString false ;;
  match py_uuid s with
  | Some b => ret b
  | None => raise EValueError
  end.

Definition json : proto jst := {|
  writeMessageBegin := j_writeMessageBegin;
  writeMessageEnd := j_writeMessageEnd;
  writeStructBegin := j_writeStructBegin;
  writeStructEnd := j_writeStructEnd;
  writeFieldBegin := j_writeFieldBegin;
  writeFieldEnd := j_writeFieldEnd;
  writeFieldStop := j_writeFieldStop;
  writeMapBegin := j_writeMapBegin;
  writeMapEnd := j_writeMapEnd;
  writeListBegin := j_writeListBegin;
  writeListEnd := j_writeListEnd;
  writeSetBegin := j_writeListBegin;
  writeSetEnd := j_writeListEnd;
  writeBool := j_writeBool;
  writeByte := j_writeInt 8;
  writeI16 := j_writeInt 16;
  writeI32 := j_writeInt 32;
  writeI64 := j_writeInt 64;
  writeDouble := j_writeDouble;
  writeString := writeJSONString;
  writeBinary := writeJSONBase64;
  writeUuid := j_writeUuid;
  readMessageBegin := j_readMessageBegin;
  readMessageEnd := j_readMessageEnd;
  readStructBegin := readJSONObjectStart;
  readStructEnd := readJSONObjectEnd;
  readFieldBegin := j_readFieldBegin;
  readFieldEnd := readJSONObjectEnd;
  readMapBegin := j_readMapBegin;
  readMapEnd := j_readMapEnd;
  readListBegin := j_readListBegin;
  readListEnd := readJSONArrayEnd;
  readSetBegin := j_readListBegin;
  readSetEnd := readJSONArrayEnd;
  readBool := j_readBool;
  readByte := readJSONInteger;
  readI16 := readJSONInteger;
  readI32 := readJSONInteger;
  readI64 := readJSONInteger;
  readDouble := readJSONDouble;
  readString := readJSONString false;
  readBinary := readJSONBase64;
  readUuid := j_readUuid |}.

End Json.
