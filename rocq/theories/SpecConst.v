(** What a constant of the IDL stands for, as far as the Python code gets it
    right: the limits are stated here, what happens beyond them in PropsConst.v. *)
From Coq Require Import String Ascii.
From Coq Require Import ZArith List Bool.
From Coq Require Import Init.Byte.
From Verif Require Import Base Bytes Utf8 Proto JsonText GenClass SpecClass Const.
Import ListNotations.
Open Scope Z_scope.

(** Doubles that survive 16 digits behind the point: zeros, and those of
    magnitude 0.5 at least. *)
Definition half_or_more (b : Z) : bool :=
  (0 <=? b) && (b <? 2 ^ 64)
  && let a := b mod 2 ^ 63 in
     (a =? 0) || ((4602678819172646912 <=? a) && (a <? 9218868437227405312)).

Definition ascii_only (s : list byte) : bool := forallb (fun b => b2z b <? 128) s.

(** The value of a uuid in the form 01234567-89ab-..., in braces or not. *)
Definition uuid_of (s : list byte) : option (list byte) :=
  let u := if (length s =? 38)%nat && bytes_eqb (firstn 1 s) [x7b] && bytes_eqb (skipn 37 s) [x7d]
           then firstn 36 (skipn 1 s) else s in
  let part i n := firstn n (skipn i u) in
  if (length u =? 36)%nat
     && bytes_eqb (part 8%nat 1%nat ++ part 13%nat 1%nat ++ part 18%nat 1%nat ++ part 23%nat 1%nat)
                  [x2d; x2d; x2d; x2d]
  then hex_bytes (map b2z (part 0%nat 8%nat ++ part 9%nat 4%nat ++ part 14%nat 4%nat
                           ++ part 19%nat 4%nat ++ part 24%nat 12%nat))
  else None.

(** A constant of base type, given by a literal. *)
Definition leaf (t : ty) (c : cv) : option value :=
  match t, c with
  | TBool, CInt z => if z =? 0 then Some (VBool false)
                     else if z =? 1 then Some (VBool true) else None
  | TByte, CInt z | TI16, CInt z | TI32, CInt z | TI64, CInt z => Some (VInt z)
  | TDouble, CInt z => Some (VDouble (if z <? 0 then dbl_round (- z) 1 + 2 ^ 63
                                      else dbl_round z 1))
  | TDouble, CDouble b => if half_or_more b then Some (VDouble b) else None
  | TString, CString s => if no_nul s then option_map VStr (utf8_decode s) else None
  | TBinary, CString s => if no_nul s && ascii_only s then Some (VBin s) else None
  | TUuid, CString s => option_map VUuid (uuid_of s)
  | _, _ => None
  end.

(** Enums as the IDL has them: simple and different names, also after words of
    Python have been escaped. *)
Definition enum_ok (d : genum) : Prop :=
  (forall m, In m (e_members d) -> after_dot (fst m) = None)
  /\ after_dot (e_name d) = None
  /\ NoDup (map fst (e_members d))
  /\ NoDup (map (fun m => maybe_escape_identifier (fst m)) (e_members d)).

(** Field names are made of ASCII characters. *)
Definition ascii_names (p : gprog) : Prop :=
  forall k f, In k (p_classes p) -> In f (k_fields k) ->
    no_nul (list_byte_of_string (g_name f)) = true
    /\ ascii_only (list_byte_of_string (g_name f)) = true.

Section Meaning.
Variable p : gprog.
Variable scope : list (string * (gty * cv)).

(** The same base type. *)
Definition same_base (a b : ty) : bool :=
  match a, b with
  | TBool, TBool | TByte, TByte | TI16, TI16 | TI32, TI32 | TI64, TI64
  | TDouble, TDouble | TString, TString | TBinary, TBinary | TUuid, TUuid => true
  | _, _ => false
  end.

(** The value given for field [n]. *)
Fixpoint given (n : list byte) (l : list (list byte * value)) : option value :=
  match l with
  | [] => None
  | (m, v) :: r => if bytes_eqb m n then Some v else given n r
  end.

Fixpoint nodupb (l : list (list byte)) : bool :=
  match l with
  | [] => true
  | x :: r => negb (existsb (bytes_eqb x) r) && nodupb r
  end.

Fixpoint meaning (t : gty) (c : cv) {struct c} : option value :=
  match t, c with
  | GBase bt, CIdent id _ =>
      match assoc id scope with
      | Some (GBase bt', c') =>
          if same_base bt bt' then
            match bt, c' with TDouble, CInt _ => None | _, _ => leaf bt c' end
          else None
      | _ => None
      end
  | GBase bt, _ => leaf bt c
  | GEnum e _, CIdent id _ =>
      match nth_error (p_enums p) e, identifier_name id with
      | Some d, Some n =>
          if String.eqb n (last_part id)
          then option_map (fun m => VInt (snd m)) (by_name d n) else None
      | _, _ => None
      end
  | GEnum e _, CInt z =>
      if is_member p e z then Some (VInt z) else None
  | GList _ et, CList l =>
      option_map VList
        ((fix go l := match l with
                      | [] => Some []
                      | x :: r => match meaning et x, go r with
                                  | Some y, Some t => Some (y :: t)
                                  | _, _ => None
                                  end
                      end) l)
  | GSet _ et, CList l =>
      if ghashable et then
        option_map (fun l' => VSet (fold_left set_add l' []))
          ((fix go l := match l with
                        | [] => Some []
                        | x :: r => match meaning et x, go r with
                                    | Some y, Some t => Some (y :: t)
                                    | _, _ => None
                                    end
                        end) l)
      else None
  | GMap _ kt vt, CMap l =>
      if ghashable kt then
        option_map (fun l' => VMap (fold_left (fun d kv => dict_set d (fst kv) (snd kv)) l' []))
          ((fix go l := match l with
                        | [] => Some []
                        | (k, x) :: r => match meaning kt k, meaning vt x, go r with
                                         | Some k', Some y, Some t => Some ((k', y) :: t)
                                         | _, _, _ => None
                                         end
                        end) l)
      else None
  | GStruct n, CMap l =>
      match nth_error (p_classes p) n with
      | None => None
      | Some k =>
          if k_exc k || unconstructible k then None
          else
            match (fix go l :=
                     match l with
                     | [] => Some []
                     | (CString s, x) :: r =>
                         match find (fun f => bytes_eqb (list_byte_of_string (g_name f)) s)
                                    (k_fields k) with
                         | None => None
                         | Some g => match meaning (g_ty g) x, go r with
                                     | Some y, Some t => Some ((s, y) :: t)
                                     | _, _ => None
                                     end
                         end
                     | _ => None
                     end) l with
            | None => None
            | Some l' =>
                if nodupb (map fst l') then
                  Some (VStruct n (map (fun g => match given (list_byte_of_string (g_name g)) l' with
                                                 | Some v => Some v
                                                 | None => g_def g
                                                 end) (k_fields k)))
                else None
            end
      end
  | _, _ => None
  end.

End Meaning.
