(** The field tables emitted by the compiler and their fix-up
    (lib/py/src/TRecursive.py).

    A struct reference inside a table is a Python list [[Class, None]], the only
    mutable object in it; such lists live in a heap, all the rest are values.
    A class's own table (attribute thrift_spec) is named by the class, so the
    second slot of a reference is either None or a class number. *)
From Coq Require Import ZArith List Bool.
From Verif Require Import Base Proto.
Import ListNotations.
Open Scope Z_scope.

(** Type arguments (t_py_generator.cc 3004-3037). *)
Inductive targs :=
| ANone                                                   (* None *)
| AStr                                                    (* 'BINARY' or 'UTF8' *)
| ARef (l : nat)                                          (* [Class, None] *)
| AElem (t : Z) (a : targs) (imm : bool)                  (* list or set *)
| AMap (kt : Z) (ka : targs) (vt : Z) (va : targs) (imm : bool).

(** One entry of a table (t_py_generator.cc 796-802).  The name and the default
    are not looked at by the fix-up; they are carried as a number each. *)
Record fspec := mkfspec {
  fs_id : Z; fs_type : Z; fs_name : Z; fs_args : targs; fs_default : Z }.

(** A list object [[Class, table]]. *)
Record cell := mkcell { c_class : nat; c_table : option nat }.

Definition heap := nat -> option cell.

Definition hset (h : heap) (l : nat) (c : cell) : heap :=
  fun l' => if (l' =? l)%nat then Some c else h l'.

Definition obind {A B} (m : outcome A) (f : A -> outcome B) : outcome B :=
  match m with Ok a => f a | Raise e => Raise e | Diverge => Diverge end.

Section Fix.
(** The tables of the classes; None is a class without the attribute. *)
Variable classes : nat -> option (list (option fspec)).

(** [args[1] = args[0].thrift_spec] (TRecursive.py 37-38, 53, 76, 84).
    Subscripting anything but a reference raises TypeError. *)
Definition fix_ref (h : heap) (a : targs) : outcome heap :=
  match a with
  | ARef l =>
      match h l with
      | Some c =>
          match classes (c_class c) with
          | Some _ => Ok (hset h l (mkcell (c_class c) (Some (c_class c))))
          | None => Raise EAttributeError
          end
      | None => Raise ETypeError
      end
  | _ => Raise ETypeError
  end.

(** _fix_list_or_set (TRecursive.py 45-57) and _fix_map (TRecursive.py 60-90).
    Arguments of another shape raise TypeError; in Python some of them would
    raise IndexError instead. *)
Fixpoint fix_list_or_set (a : targs) (h : heap) {struct a} : outcome heap :=
  match a with
  | AElem t b _ =>
      if t =? T_STRUCT then fix_ref h b
      else if (t =? T_LIST) || (t =? T_SET) then fix_list_or_set b h
      else if t =? T_MAP then fix_map b h
      else Ok h
  | _ => Raise ETypeError
  end
with fix_map (a : targs) (h : heap) {struct a} : outcome heap :=
  match a with
  | AMap kt ka vt va _ =>
      obind
        (if kt =? T_STRUCT then fix_ref h ka
         else if (kt =? T_LIST) || (kt =? T_SET) then fix_list_or_set ka h
         else if kt =? T_MAP then fix_map ka h
         else Ok h)
        (fun h1 =>
           if vt =? T_STRUCT then fix_ref h1 va
           else if (vt =? T_LIST) || (vt =? T_SET) then fix_list_or_set va h1
           else if vt =? T_MAP then fix_map va h1
           else Ok h1)
  | _ => Raise ETypeError
  end.

(** The inner loop of fix_spec (TRecursive.py 33-42). *)
Fixpoint fix_fields (spec : list (option fspec)) (h : heap) : outcome heap :=
  match spec with
  | [] => Ok h
  | None :: r => fix_fields r h
  | Some f :: r =>
      obind
        (if fs_type f =? T_STRUCT then fix_ref h (fs_args f)
         else if (fs_type f =? T_LIST) || (fs_type f =? T_SET)
              then fix_list_or_set (fs_args f) h
         else if fs_type f =? T_MAP then fix_map (fs_args f) h
         else Ok h)
        (fix_fields r)
  end.

(** fix_spec (TRecursive.py 29-42). *)
Fixpoint fix_spec (all_structs : list nat) (h : heap) : outcome heap :=
  match all_structs with
  | [] => Ok h
  | c :: r =>
      match classes c with
      | None => Raise EAttributeError
      | Some spec => obind (fix_fields spec h) (fix_spec r)
      end
  end.
End Fix.

(** * What the compiler emits

    type_to_spec_args (t_py_generator.cc 3004-3037); evaluating the emitted
    expression allocates the lists.  [imm] is is_immutable, an annotation of the
    container type.  The state is the next free address and the heap. *)
Fixpoint emit_args (imm : bool) (t : ty) (s : nat * heap) : targs * (nat * heap) :=
  match t with
  | TString | TBinary => (AStr, s)
  | TStruct c => (ARef (fst s), (S (fst s), hset (snd s) (fst s) (mkcell c None)))
  | TList e | TSet e =>
      let '(a, s1) := emit_args imm e s in (AElem (code e) a imm, s1)
  | TMap k v =>
      let '(ka, s1) := emit_args imm k s in
      let '(va, s2) := emit_args imm v s1 in
      (AMap (code k) ka (code v) va imm, s2)
  | _ => (ANone, s)
  end.

(** The entries of one class (t_py_generator.cc 785-811); [pos] is
    sorted_keys_pos, and the None entries before each field are emitted. *)
Fixpoint emit_fields (imm : bool) (pos : Z) (ds : list fielddef) (s : nat * heap)
  : list (option fspec) * (nat * heap) :=
  match ds with
  | [] => ([], s)
  | d :: r =>
      let '(a, s1) := emit_args imm (f_ty d) s in
      let '(l, s2) := emit_fields imm (f_id d + 1) r s1 in
      (repeat None (Z.to_nat (f_id d - pos))
       ++ Some (mkfspec (f_id d) (code (f_ty d)) 0 a 0) :: l, s2)
  end.

Definition emit_class (imm : bool) (ds : list fielddef) (s : nat * heap)
  : list (option fspec) * (nat * heap) :=
  match ds with
  | d :: _ => if 0 <=? f_id d then emit_fields imm 0 ds s else ([], s)
  | [] => ([], s)
  end.

Fixpoint emit_module (imm : bool) (env : schema) (s : nat * heap)
  : list (list (option fspec)) * heap :=
  match env with
  | [] => ([], snd s)
  | ds :: r =>
      let '(spec, s1) := emit_class imm ds s in
      let '(l, h) := emit_module imm r s1 in
      (spec :: l, h)
  end.
