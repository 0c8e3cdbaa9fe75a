(** Constants and default values on their way from the IDL into generated
    Python: the literals of the scanner, the resolution of identifiers, the
    checks of the compiler, the text the Python generator emits, and what
    Python makes of that text.  No proofs here. *)
From Coq Require Import String Ascii.
From Coq Require Import ZArith List Bool.
From Coq Require Import Init.Byte.
From Verif Require Import Base Bytes Utf8 Proto JsonText GenClass.
Import ListNotations.
Open Scope Z_scope.

(** * Constant values as the compiler holds them *)

(** t_const_value (parse/t_const_value.h 35-268).  An identifier carries the
    enum it has been resolved to, if any ([set_enum]).  The entries of a map
    are listed in the order the std::map is iterated in, the elements of a list
    in theirs.  A double is its bit pattern. *)
Inductive cv :=
| CInt (z : Z)
| CDouble (bits : Z)
| CString (s : list byte)
| CIdent (id : string) (e : option nat)
| CMap (l : list (cv * cv))
| CList (l : list cv).

(** The getters do not look at the kind of the value: what has not been set is
    0, 0.0, "" or empty (53-58, 66, 85, 114, 120, 126). *)
Definition get_double (c : cv) : Z := match c with CDouble b => b | _ => 0 end.
Definition get_string (c : cv) : list byte := match c with CString s => s | _ => [] end.
Definition get_map (c : cv) : list (cv * cv) := match c with CMap l => l | _ => [] end.
Definition get_list (c : cv) : list cv := match c with CList l => l | _ => [] end.

(** The text after the first dot; None if there is no dot. *)
Fixpoint after_dot (s : string) : option string :=
  match s with
  | EmptyString => None
  | String c r => if Ascii.eqb c "." then Some r else after_dot r
  end.

(** The text after the last dot, or the whole text. *)
Fixpoint last_part (s : string) : string :=
  match s with
  | EmptyString => EmptyString
  | String c r => match after_dot s with None => s | Some _ => last_part r end
  end.

(** get_identifier_name (137-149): what is left after the first two dots. *)
Definition identifier_name (s : string) : option string :=
  match after_dot s with
  | None => None
  | Some r => match after_dot r with None => Some r | Some r' => Some r' end
  end.

(** get_constant_by_name, get_constant_by_value (parse/t_enum.h 42-62). *)
Definition by_name (d : genum) (n : string) : option (string * Z) :=
  find (fun m => String.eqb (fst m) n) (e_members d).
Definition by_value (d : genum) (z : Z) : option (string * Z) :=
  find (fun m => snd m =? z) (e_members d).

(** validate_uuid (t_const_value.h 222-258): braces are taken off; None is an
    error. *)
Definition unbrace (s : list byte) : list byte :=
  if (length s =? 38)%nat && bytes_eqb (firstn 1 s) [x7b] && bytes_eqb (skipn 37 s) [x7d]
  then firstn 36 (skipn 1 s) else s.
Fixpoint uuid_chars (i : nat) (s : list byte) : bool :=
  match s with
  | [] => true
  | b :: r =>
      (if (i =? 8)%nat || (i =? 13)%nat || (i =? 18)%nat || (i =? 23)%nat
       then b2z b =? 45
       else match hex_digit (b2z b) with Some _ => true | None => false end)
      && uuid_chars (S i) r
  end.
Definition validate_uuid (s : list byte) : option (list byte) :=
  let u := unbrace s in
  if (length u =? 36)%nat && uuid_chars 0 u then Some u else None.

(** * String literals of the IDL (thriftl.ll 285-334) *)

(** From behind the opening mark; the string and what follows the closing mark.
    None is an error.  The end of the file is an error too; strdup(c_str())
    (327) cuts at a NUL, so that NUL bytes are left out of account: see
    [no_nul]. *)
Fixpoint lex_literal (mark : byte) (l : list byte) : option (list byte * list byte) :=
  match l with
  | [] => None
  | b :: r =>
      if Byte.eqb b x0a then None
      else if Byte.eqb b x5c then
        match r with
        | [] => None
        | e :: r' =>
            match (match e with
                   | x72 => Some x0d | x6e => Some x0a | x74 => Some x09
                   | x22 => Some x22 | x27 => Some x27 | x5c => Some x5c
                   | _ => None
                   end) with
            | None => None
            | Some c => match lex_literal mark r' with
                        | Some (s, t) => Some (c :: s, t)
                        | None => None
                        end
            end
        end
      else if Byte.eqb b mark then Some ([], r)
      else match lex_literal mark r with
           | Some (s, t) => Some (b :: s, t)
           | None => None
           end
  end.

Definition no_nul (s : list byte) : bool := forallb (fun b => negb (Byte.eqb b x00)) s.

(** * Text emitted for leaves *)

(** escape_ (t_generator.h 52-56), escape_string (t_generator.cc 150-160). *)
Definition escape_byte (b : byte) : list byte :=
  match b with
  | x0a => [x5c; x6e] | x0d => [x5c; x72] | x09 => [x5c; x74]
  | x22 => [x5c; x22] | x5c => [x5c; x5c]
  | _ => [b]
  end.
Definition escape_string (s : list byte) : list byte := flat_map escape_byte s.

(** emit_double_as_string (t_generator.h 319-341): std::fixed with a precision
    of digits10 + 1, which is 16.  glibc rounds the exact value, ties to even. *)
Definition pad16 (n : Z) : list Z :=
  let ds := digits n in repeat 48 (16 - length ds) ++ ds.
Definition emit_double (b : Z) : list Z :=
  let sg := if DBL_SIGN <=? b then [45] else [] in
  let a := b mod DBL_SIGN in
  if DBL_INF <? a then sg ++ [110; 97; 110]
  else if a =? DBL_INF then sg ++ [105; 110; 102]
  else
    let (m, q) := dbl_mant a in
    let (n, d) := scale 2 m q in
    let k := rne (n * 10 ^ 16) d in
    sg ++ digits (k / 10 ^ 16) ++ 46 :: pad16 (k mod 10 ^ 16).

(** * Python source

    What the generator emits, up to the layout: the leaves are the texts of
    tokens, the rest is the expression they are put together to. *)
Inductive pexpr :=
| XInt (t : list Z)                       (* 12 *)
| XFloat (t : list Z)                     (* 1.5000000000000000 *)
| XFloatInt (t : list Z)                  (* float(12) *)
| XStr (raw : list byte)                  (* "..." *)
| XBytes (raw : list byte)                (* b"..." *)
| XUuid (raw : list byte)                 (* UUID("...") *)
| XBool (b : bool)
| XEnum (e : nat) (n : string)            (* Enum.NAME *)
| XList (imm : bool) (l : list pexpr)     (* [...] or (...) *)
| XSet (imm : bool) (l : list pexpr)      (* set((...)) or frozenset((...)) *)
| XDict (imm : bool) (l : list (pexpr * pexpr))   (* {...} or TFrozenDict({...}) *)
| XNew (n : nat) (l : list (list byte * pexpr)).  (* Class( ** {"name": ...}) *)

Section Compiler.
Variable p : gprog.
(** The constants known so far, with their types (parse/t_scope.h). *)
Variable scope : list (string * (gty * cv)).

(** get_integer (t_const_value.h 66-84); None is an error. *)
Definition get_integer (c : cv) : option Z :=
  match c with
  | CInt z => Some z
  | CIdent _ None => None
  | CIdent id (Some e) =>
      match nth_error (p_enums p) e with
      | None => None
      | Some d => option_map snd (by_name d (last_part id))
      end
  | _ => Some 0
  end.

Fixpoint mapo {A B} (f : A -> option B) (l : list A) : option (list B) :=
  match l with
  | [] => Some []
  | x :: r => match f x, mapo f r with
              | Some y, Some t => Some (y :: t)
              | _, _ => None
              end
  end.

(** The name of a field as bytes. *)
Definition name_bytes (n : string) : list byte := list_byte_of_string n.

(** get_field_by_name (parse/t_struct.h); the loops in main.cc 834-838 and
    t_py_generator.cc 672-676 find the same, names being unique. *)
Definition field_named (k : gclass) (n : list byte) : option gfield :=
  find (fun f => bytes_eqb (name_bytes (g_name f)) n) (k_fields k).

(** resolve_const_value (parse/t_scope.h 109-210); None is an error.  Values are
    updated in place there.  An identifier is looked up as it is; the names of
    other programs are part of it. *)
Definition resolve_leaf (t : gty) (c : cv) : option cv :=
  match c with
  | CIdent id _ =>
      match t with
      | GEnum e _ => Some (CIdent id (Some e))
      | _ =>
          match assoc id scope with
          | None => None
          | Some (GBase bt, c') =>
              match bt with
              | TBool | TByte | TI16 | TI32 | TI64 => option_map CInt (get_integer c')
              | TString | TBinary => Some (CString (get_string c'))
              | TUuid => option_map CString (validate_uuid (get_string c'))
              | TDouble => Some (CDouble (get_double c'))
              | _ => Some c
              end
          | Some (GMap _ _ _, c') => Some (CMap (get_map c'))
          | Some (GList _ _, c') => Some (CList (get_list c'))
          | Some (_, _) => Some c
          end
      end
  | _ =>
      match t with
      | GEnum e _ =>
          match nth_error (p_enums p) e, get_integer c with
          | Some d, Some z =>
              match by_value d z with
              | Some m => Some (CIdent (e_name d ++ "." ++ fst m)%string (Some e))
              | None => None
              end
          | _, _ => None
          end
      | _ => Some c
      end
  end.

Fixpoint resolve (t : gty) (c : cv) {struct c} : option cv :=
  match t with
  | GMap _ kt vt =>
      match c with
      | CMap l =>
          option_map CMap
            ((fix go l :=
                match l with
                | [] => Some []
                | (k, x) :: r =>
                    match resolve kt k, resolve vt x, go r with
                    | Some k', Some x', Some r' => Some ((k', x') :: r')
                    | _, _, _ => None
                    end
                end) l)
      | _ => Some c
      end
  | GList _ et | GSet _ et =>
      match c with
      | CList l =>
          option_map CList
            ((fix go l :=
                match l with
                | [] => Some []
                | x :: r => match resolve et x, go r with
                            | Some x', Some r' => Some (x' :: r')
                            | _, _ => None
                            end
                end) l)
      | _ => Some c
      end
  | GStruct n =>
      match nth_error (p_classes p) n with
      | None => None
      | Some k =>
          if k_exc k then resolve_leaf t c   (* is_struct() is false *)
          else
            match c with
            | CMap l =>
                option_map CMap
                  ((fix go l :=
                      match l with
                      | [] => Some []
                      | (f, x) :: r =>
                          match field_named k (get_string f) with
                          | None => None
                          | Some g =>
                              match resolve (g_ty g) x, go r with
                              | Some x', Some r' => Some ((f, x') :: r')
                              | _, _ => None
                              end
                          end
                      end) l)
            | _ => Some c
            end
      end
  | _ => resolve_leaf t c
  end.

(** validate_const_rec (main.cc 742-867); None is an error.  Of a uuid the
    braces are taken off in place (761). *)
Fixpoint validate (t : gty) (c : cv) {struct c} : option cv :=
  match t with
  | GBase bt =>
      match bt, c with
      | TString, CString _ | TBinary, CString _ => Some c
      | TUuid, CString s => option_map CString (validate_uuid s)
      | TBool, CInt _ | TByte, CInt _ | TI16, CInt _ | TI32, CInt _ | TI64, CInt _ => Some c
      | TDouble, CInt _ | TDouble, CDouble _ => Some c
      | _, _ => None
      end
  | GEnum e _ =>
      match c, nth_error (p_enums p) e with
      | CIdent id _, Some d =>
          match identifier_name id with
          | None => None
          | Some n => match by_name d n with Some _ => Some c | None => None end
          end
      | _, _ => None
      end
  | GStruct n =>
      match c, nth_error (p_classes p) n with
      | CMap l, Some k =>
          option_map CMap
            ((fix go l :=
                match l with
                | [] => Some []
                | (f, x) :: r =>
                    match f with
                    | CString s =>
                        match field_named k s with
                        | None => None
                        | Some g =>
                            match validate (g_ty g) x, go r with
                            | Some x', Some r' => Some ((f, x') :: r')
                            | _, _ => None
                            end
                        end
                    | _ => None
                    end
                end) l)
      | _, _ => None
      end
  | GMap _ kt vt =>
      match c with
      | CMap l =>
          option_map CMap
            ((fix go l :=
                match l with
                | [] => Some []
                | (k, x) :: r =>
                    match validate kt k, validate vt x, go r with
                    | Some k', Some x', Some r' => Some ((k', x') :: r')
                    | _, _, _ => None
                    end
                end) l)
      | _ => Some c
      end
  | GList _ et | GSet _ et =>
      match c with
      | CList l =>
          option_map CList
            ((fix go l :=
                match l with
                | [] => Some []
                | x :: r => match validate et x, go r with
                            | Some x', Some r' => Some (x' :: r')
                            | _, _ => None
                            end
                end) l)
      | _ => Some c
      end
  end.

(** render_const_value (t_py_generator.cc 608-730); None is an error. *)
Fixpoint render (t : gty) (c : cv) {struct c} : option pexpr :=
  match t with
  | GBase bt =>
      match bt with
      | TString => Some (XStr (escape_string (get_string c)))
      | TBinary => Some (XBytes (escape_string (get_string c)))
      | TBool => option_map (fun z => XBool (0 <? z)) (get_integer c)
      | TByte | TI16 | TI32 | TI64 => option_map (fun z => XInt (int_text z)) (get_integer c)
      | TDouble =>
          match c with
          | CInt z => Some (XFloatInt (int_text z))
          | _ => Some (XFloat (emit_double (get_double c)))
          end
      | TUuid => Some (XUuid (escape_string (get_string c)))
      | _ => None
      end
  | GEnum e _ =>
      match nth_error (p_enums p) e, get_integer c with
      | Some d, Some z =>
          if o_enum p then
            option_map (fun m => XEnum e (maybe_escape_identifier (fst m))) (by_value d z)
          else Some (XInt (int_text z))
      | _, _ => None
      end
  | GStruct n =>
      match nth_error (p_classes p) n with
      | None => None
      | Some k =>
          match c with
          | CMap l =>
              option_map (XNew n)
                ((fix go l :=
                    match l with
                    | [] => Some []
                    | (f, x) :: r =>
                        match field_named k (get_string f) with
                        | None => None
                        | Some g =>
                            match render (g_ty g) x, go r with
                            | Some x', Some r' =>
                                Some ((escape_string (get_string f), x') :: r')
                            | _, _ => None
                            end
                        end
                    end) l)
          | _ => Some (XNew n [])
          end
      end
  | GMap i kt vt =>
      match c with
      | CMap l =>
          option_map (XDict i)
            ((fix go l :=
                match l with
                | [] => Some []
                | (k, x) :: r =>
                    match render kt k, render vt x, go r with
                    | Some k', Some x', Some r' => Some ((k', x') :: r')
                    | _, _, _ => None
                    end
                end) l)
      | _ => Some (XDict i [])
      end
  | GList i et =>
      match c with
      | CList l =>
          option_map (XList i)
            ((fix go l :=
                match l with
                | [] => Some []
                | x :: r => match render et x, go r with
                            | Some x', Some r' => Some (x' :: r')
                            | _, _ => None
                            end
                end) l)
      | _ => Some (XList i [])
      end
  | GSet i et =>
      match c with
      | CList l =>
          option_map (XSet i)
            ((fix go l :=
                match l with
                | [] => Some []
                | x :: r => match render et x, go r with
                            | Some x', Some r' => Some (x' :: r')
                            | _, _ => None
                            end
                end) l)
      | _ => Some (XSet i [])
      end
  end.

(** [const t NAME = c]: resolved and checked when it has been parsed
    (thrifty.yy 526-540), rendered when the program is generated. *)
Definition compile_const (t : gty) (c : cv) : option pexpr :=
  match resolve t c with
  | None => None
  | Some c1 => match validate t c1 with None => None | Some c2 => render t c2 end
  end.

End Compiler.

(** * What Python makes of it *)

Inductive pyres (A : Type) :=
| POk (a : A)
| PNameError
| PRaise (e : exn).
Arguments POk {A}.
Arguments PNameError {A}.
Arguments PRaise {A}.

(** The text between the marks of a string literal ("...") as code points; None
    is a SyntaxError.  Escapes in octal, hexadecimal or by name are not modelled
    (None here). *)
Definition simple_escape (c : Z) : option (list Z) :=
  if c =? 110 then Some [10] else if c =? 114 then Some [13]
  else if c =? 116 then Some [9] else if c =? 34 then Some [34]
  else if c =? 39 then Some [39] else if c =? 92 then Some [92]
  else if c =? 97 then Some [7] else if c =? 98 then Some [8]
  else if c =? 102 then Some [12] else if c =? 118 then Some [11]
  else if c =? 10 then Some []
  else if (is_digit c && (c <? 56)) || (c =? 120) || (c =? 78) || (c =? 117) || (c =? 85)
  then None
  else Some [92; c].
Fixpoint py_unescape (l : list Z) : option (list Z) :=
  match l with
  | [] => Some []
  | c :: r =>
      if c =? 92 then
        match r with
        | [] => None
        | d :: r' => match simple_escape d, py_unescape r' with
                     | Some x, Some t => Some (x ++ t)
                     | _, _ => None
                     end
        end
      else if (c =? 34) || (c =? 10) || (c =? 13) || (c =? 0) then None
      else option_map (cons c) (py_unescape r)
  end.

(** The file is read as UTF-8, the default of Python 3; the [coding] option is
    not given. *)
Definition str_literal (raw : list byte) : option (list Z) :=
  match utf8_decode raw with Some l => py_unescape l | None => None end.
(** A bytes literal may hold ASCII only. *)
Definition bytes_literal (raw : list byte) : option (list byte) :=
  match utf8_decode raw with
  | Some l => if forallb (fun c => c <? 128) l
              then option_map (map z2b) (py_unescape l) else None
  | None => None
  end.

(** A decimal integer, with a sign in front; no leading zeros. *)
Definition nat_literal (l : list Z) : option Z :=
  match l with
  | [] => None
  | c :: r => if forallb is_digit l && (negb (c =? 48) || forallb (fun d => d =? 48) r)
              then Some (digits_val l) else None
  end.
Definition int_literal (l : list Z) : option Z :=
  match l with
  | 45 :: r => option_map Z.opp (nat_literal r)
  | _ => nat_literal l
  end.

(** A float literal with a sign in front, or a name. *)
Inductive ftok := FVal (b : Z) | FName.
Definition float_literal (l : list Z) : option ftok :=
  let abs l :=
    if list_eqb l [105; 110; 102] || list_eqb l [110; 97; 110] then Some FName
    else match dec_literal l with
         | Some (n, e) => let (a, b) := scale 10 n e in Some (FVal (dbl_round a b))
         | None => None
         end in
  match l with
  | 45 :: r => option_map (fun f => match f with
                                    | FVal b => FVal (b + DBL_SIGN)
                                    | FName => FName
                                    end) (abs r)
  | _ => abs l
  end.

(** [float(z)] for an int in the range of i64. *)
Definition float_of_int (z : Z) : Z :=
  if z <? 0 then dbl_round (- z) 1 + DBL_SIGN else dbl_round z 1.

(** The tokens are those of Python. *)
Fixpoint lexes (x : pexpr) : bool :=
  let some {A} (o : option A) := match o with Some _ => true | None => false end in
  match x with
  | XInt t | XFloatInt t => some (int_literal t)
  | XFloat t => some (float_literal t)
  | XStr raw | XUuid raw => some (str_literal raw)
  | XBytes raw => some (bytes_literal raw)
  | XBool _ | XEnum _ _ => true
  | XList _ l | XSet _ l => forallb lexes l
  | XDict _ l => forallb (fun kv => match kv with (k, v) => lexes k && lexes v end) l
  | XNew _ l => forallb (fun kv => match kv with (k, v) => some (str_literal k) && lexes v end) l
  end.

(** [hash(x)] works: base types and enum members.  Frozen containers and objects
    of immutable classes may be hashable too, which is not modelled. *)
Definition hashes (x : pv) : bool :=
  match x with PVal _ | PMember _ _ => true | _ => false end.

(** A field whose default the constructor compares with the one in thrift_spec
    (t_py_generator.cc 910-917): neither a base type nor an enum by that name.
    Typedefs of base types are not told apart from base types.  The entry is
    looked up by the id, and thrift_spec is empty if there is a negative id
    (generate_py_thrift_spec, 788-812): IndexError. *)
Definition guarded (f : gfield) : bool :=
  match g_ty f, g_def f with
  | GBase _, _ | GEnum _ false, _ | _, None => false
  | _, Some _ => true
  end.
Definition has_negative (k : gclass) : bool := existsb (fun f => g_id f <? 0) (k_fields k).
Definition unconstructible (k : gclass) : bool :=
  has_negative k && existsb guarded (k_fields k).

Section Eval.
Variable p : gprog.

(** A code point list as a name; names are ASCII. *)
Definition to_name (l : list Z) : string :=
  string_of_list_ascii (map (fun c => ascii_of_nat (Z.to_nat c)) l).

(** [cls( ** kw)]; [self.thrift_spec[i][4]] is evaluated whatever is passed.
    Its failure may come after that of an assignment before it; here it comes
    first. *)
Definition new_object (n : nat) (kw : attrs) : pyres pv :=
  match nth_error (p_classes p) n with
  | None => PNameError
  | Some k =>
      match construct p k kw with
      | Raise ETypeError => PRaise ETypeError
      | o => if unconstructible k then PRaise EIndexError
             else match o with
                  | Ok a => POk (PObj n a)
                  | Raise e => PRaise e
                  | Diverge => PNameError
                  end
      end
  end.

Fixpoint eval (x : pexpr) : pyres pv :=
  match x with
  | XInt t => match int_literal t with Some z => POk (PVal (VInt z)) | None => PNameError end
  | XFloatInt t =>
      match int_literal t with
      | Some z => POk (PVal (VDouble (float_of_int z)))
      | None => PNameError
      end
  | XFloat t =>
      match float_literal t with
      | Some (FVal b) => POk (PVal (VDouble b))
      | _ => PNameError
      end
  | XStr raw => match str_literal raw with Some s => POk (PVal (VStr s)) | None => PNameError end
  | XBytes raw =>
      match bytes_literal raw with Some s => POk (PVal (VBin s)) | None => PNameError end
  | XUuid raw =>
      match str_literal raw with
      | Some s => match py_uuid s with
                  | Some u => POk (PVal (VUuid u))
                  | None => PRaise EValueError
                  end
      | None => PNameError
      end
  | XBool b => POk (PVal (VBool b))
  | XEnum e n =>
      match nth_error (p_enums p) e with
      | None => PNameError
      | Some d =>
          match find (fun m => String.eqb (maybe_escape_identifier (fst m)) n) (e_members d) with
          | Some m => POk (PMember e (snd m))
          | None => PRaise EAttributeError
          end
      end
  | XList i l =>
      match (fix go l := match l with
                         | [] => POk []
                         | x :: r => match eval x with
                                     | POk y => match go r with
                                                | POk t => POk (y :: t)
                                                | PNameError => PNameError
                                                | PRaise e => PRaise e
                                                end
                                     | PNameError => PNameError
                                     | PRaise e => PRaise e
                                     end
                         end) l with
      | POk l' => POk (PList i l')
      | PNameError => PNameError
      | PRaise e => PRaise e
      end
  | XSet i l =>
      match (fix go l := match l with
                         | [] => POk []
                         | x :: r => match eval x with
                                     | POk y => match go r with
                                                | POk t => POk (y :: t)
                                                | PNameError => PNameError
                                                | PRaise e => PRaise e
                                                end
                                     | PNameError => PNameError
                                     | PRaise e => PRaise e
                                     end
                         end) l with
      | POk l' => if forallb hashes l' then POk (PSet i (fold_left pset_add l' []))
                  else PRaise ETypeError
      | PNameError => PNameError
      | PRaise e => PRaise e
      end
  | XDict i l =>
      match (fix go l := match l with
                         | [] => POk []
                         | (k, x) :: r =>
                             match eval k with
                             | POk k' =>
                                 match eval x with
                                 | POk y => match go r with
                                            | POk t => POk ((k', y) :: t)
                                            | PNameError => PNameError
                                            | PRaise e => PRaise e
                                            end
                                 | PNameError => PNameError
                                 | PRaise e => PRaise e
                                 end
                             | PNameError => PNameError
                             | PRaise e => PRaise e
                             end
                         end) l with
      | POk l' =>
          if forallb (fun kv => hashes (fst kv)) l'
          then POk (PMap i (fold_left (fun d kv => pdict_set d (fst kv) (snd kv)) l' []))
          else PRaise ETypeError
      | PNameError => PNameError
      | PRaise e => PRaise e
      end
  | XNew n l =>
      match (fix go l := match l with
                         | [] => POk []
                         | (k, x) :: r =>
                             match str_literal k with
                             | None => PNameError
                             | Some s =>
                                 match eval x with
                                 | POk y => match go r with
                                            | POk t => POk ((to_name s, Some y) :: t)
                                            | PNameError => PNameError
                                            | PRaise e => PRaise e
                                            end
                                 | PNameError => PNameError
                                 | PRaise e => PRaise e
                                 end
                             end
                         end) l with
      | POk kw => new_object n kw
      | PNameError => PNameError
      | PRaise e => PRaise e
      end
  end.

(** Importing constants.py: a token that is none of Python's is a SyntaxError,
    before anything is executed.  None of the names the module uses is bound
    to a constant. *)
Inductive import :=
| Imported (m : list (string * pv))
| SyntaxError
| NameError
| Failed (e : exn).

Fixpoint exec (l : list (string * pexpr)) (m : list (string * pv)) : import :=
  match l with
  | [] => Imported m
  | (n, x) :: r =>
      match eval x with
      | POk v => exec r (upd m (maybe_escape_identifier n) v)
      | PNameError => NameError
      | PRaise e => Failed e
      end
  end.
Definition import_constants (l : list (string * pexpr)) : import :=
  if forallb (fun nx => lexes (snd nx)) l then exec l [] else SyntaxError.

End Eval.
