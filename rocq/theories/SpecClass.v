(** What the statements about generated classes assume of a program, in terms
    of its names and types only. *)
From Coq Require Import String.
From Coq Require Import ZArith List Bool.
From Verif Require Import Base Proto Spec GenClass.
Import ListNotations.
Open Scope Z_scope.

(** Keywords of Python 3 (keyword.kwlist, since 3.7). *)
Definition kwlist : list string :=
  ["False"; "None"; "True"; "and"; "as"; "assert"; "async"; "await"; "break";
   "class"; "continue"; "def"; "del"; "elif"; "else"; "except"; "finally";
   "for"; "from"; "global"; "if"; "import"; "in"; "is"; "lambda"; "nonlocal";
   "not"; "or"; "pass"; "raise"; "return"; "try"; "while"; "with";
   "yield"]%string.

Definition names (k : gclass) : list string := map g_name (k_fields k).

(** Field names pairwise different, none a word the generator escapes, none
    the name of a method. *)
Definition plain (k : gclass) : Prop :=
  NoDup (names k)
  /\ (forall n, In n (names k) -> ~ In n python_keywords_)
  /\ (forall n, In n (names k) -> ~ In n ["read"; "write"; "validate"]%string).

(** The names the body of a generated [read] uses, besides those of the
    fields.  (No identifier is empty.) *)
Definition body_names (p : gprog) : list string :=
  (["cls"; "iprot"; "fname"; "ftype"; "fid"; "TType"; "sys"; "range"; "set";
    "tuple"; "frozenset"; "TFrozenDict"; ""]%string
   ++ map e_name (p_enums p) ++ map k_name (p_classes p))%list.

(** No field of an immutable class has such a name. *)
Definition unhidden (p : gprog) (k : gclass) : Prop :=
  k_imm k = true -> forall n, In n (names k) -> ~ In n (body_names p).

(** Base types where base types are meant; an enum field's default is an
    integer. *)
Fixpoint base_leaves (t : gty) : bool :=
  match t with
  | GBase bt => base_ty bt
  | GEnum _ _ => true
  | GList _ t | GSet _ t => base_leaves t
  | GMap _ k v => base_leaves k && base_leaves v
  | GStruct _ => true
  end.
Definition typed (k : gclass) : Prop :=
  forall f, In f (k_fields k) ->
    base_leaves (g_ty f) = true
    /\ match g_ty f, g_def f with
       | GEnum _ _, Some v => exists z, v = VInt z
       | _, _ => True
       end.

Definition prog_ok (p : gprog) : Prop :=
  forall k, In k (p_classes p) -> plain k /\ unhidden p k /\ typed k.

(** [v] is built as the type says, down to the leaves; an enum value is an
    integer.  What the leaves of base types are is left open. *)
Fixpoint shaped (p : gprog) (t : gty) (v : value) {struct v} : bool :=
  match t, v with
  | GBase _, _ => true
  | GEnum _ _, VInt _ => true
  | GList _ et, VList l => forallb (shaped p et) l
  | GSet _ et, VSet l => forallb (shaped p et) l
  | GMap _ kt vt, VMap l =>
      forallb (fun kv => match kv with
                         | (k, x) => shaped p kt k && shaped p vt x
                         end) l
  | GStruct _, VStruct n fs =>
      match nth_error (p_classes p) n with
      | None => false
      | Some k =>
          (fix go fs gs :=
             match fs, gs with
             | [], [] => true
             | f :: fs', g :: gs' =>
                 match f with
                 | Some x => shaped p (g_ty g) x
                 | None => true
                 end && go fs' gs'
             | _, _ => false
             end) fs (k_fields k)
      end
  | _, _ => false
  end.

(** Every integer of an enum type in [v] is a member of the enum. *)
Fixpoint enums_ok (p : gprog) (t : gty) (v : value) {struct v} : bool :=
  match t, v with
  | GEnum e _, VInt z => is_member p e z
  | GList _ et, VList l => forallb (enums_ok p et) l
  | GSet _ et, VSet l => forallb (enums_ok p et) l
  | GMap _ kt vt, VMap l =>
      forallb (fun kv => match kv with
                         | (k, x) => enums_ok p kt k && enums_ok p vt x
                         end) l
  | GStruct _, VStruct n fs =>
      match nth_error (p_classes p) n with
      | None => true
      | Some k =>
          (fix go fs gs :=
             match fs, gs with
             | f :: fs', g :: gs' =>
                 match f with
                 | Some x => enums_ok p (g_ty g) x
                 | None => true
                 end && go fs' gs'
             | _, _ => true
             end) fs (k_fields k)
      end
  | _, _ => true
  end.

(** Where the C decoder gives what the Python reader gives: enums are ints
    anyway, or occur only as fields of mutable classes, declared with the enum
    type itself. *)
Fixpoint no_enum (t : gty) : bool :=
  match t with
  | GBase _ | GStruct _ => true
  | GEnum _ _ => false
  | GList _ t | GSet _ t => no_enum t
  | GMap _ k v => no_enum k && no_enum v
  end.
Definition c_readable (p : gprog) : Prop :=
  o_enum p = false
  \/ forall k f, In k (p_classes p) -> In f (k_fields k) ->
       match g_ty f with
       | GEnum _ false => k_imm k = false
       | t => no_enum t = true
       end.

(** The enum values of a value that are not inside a struct. *)
Fixpoint leaves (t : gty) (x : pv) {struct x} : list pv :=
  match t, x with
  | GEnum _ _, _ => [x]
  | GList _ et, PList _ l | GSet _ et, PSet _ l => flat_map (leaves et) l
  | GMap _ kt vt, PMap _ l =>
      flat_map (fun kv => match kv with (k, y) => leaves kt k ++ leaves vt y end) l
  | _, _ => []
  end.

(** Defaults are built as their types say, and enum values in them are
    members. *)
Definition defaults_ok (p : gprog) : Prop :=
  forall k f v, In k (p_classes p) -> In f (k_fields k) -> g_def f = Some v ->
    shaped p (g_ty f) v = true /\ enums_ok p (g_ty f) v = true.

Definition plain_int (y : pv) : Prop := exists z, y = PVal (VInt z).
Definition member (y : pv) : Prop := exists e z, y = PMember e z.
