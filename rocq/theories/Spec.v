(** Specification vocabulary used by the theorem statements: which values are
    well formed, how deep they nest, what a reader with another version of the
    schema should get.  Nothing here mentions how the library works. *)
From Coq Require Import ZArith List Bool.
From Coq Require Import Init.Byte.
From Verif Require Import Base Bytes Utf8 Proto.
Import ListNotations.
Open Scope Z_scope.

(** [lo <= z <= hi] *)
Definition between (lo hi z : Z) : bool := (lo <=? z) && (z <=? hi).

Definition len_le {A} (l : list A) (n : Z) : bool := Z.of_nat (length l) <=? n.

(** No two elements compare equal. *)
Fixpoint nodup_keys (l : list value) : bool :=
  match l with
  | [] => true
  | x :: r => negb (existsb (fun y => key_eqb y x) r) && nodup_keys r
  end.

Definition base_ty (t : ty) : bool :=
  match t with
  | TList _ | TSet _ | TMap _ _ | TStruct _ => false
  | _ => true
  end.

(** Base values in range.  [SL] bounds the size of strings in bytes, [D] says
    which doubles (as bit patterns) are admitted. *)
Definition base_okd (D : Z -> bool) (SL : Z) (t : ty) (v : value) : bool :=
  match t, v with
  | TBool, VBool _ => true
  | TByte, VInt z => between (-128) 127 z
  | TI16, VInt z => between (-32768) 32767 z
  | TI32, VInt z => between (-2147483648) 2147483647 z
  | TI64, VInt z => between (-9223372036854775808) 9223372036854775807 z
  | TDouble, VDouble d =>
      if D d then between 0 18446744073709551615 d else false
  | TString, VStr s =>
      match utf8_encode s with Some b => len_le b SL | None => false end
  | TBinary, VBin b => len_le b SL
  | TUuid, VUuid b => Z.of_nat (length b) =? 16
  | _, _ => false
  end.

(** [v] is a well-formed object of type [t]: integers in range, strings
    encodable, sizes within [SL] and [CL], set elements and dict keys hashable
    and pairwise different, structs with the attributes of their class and the
    required ones set. *)
Fixpoint wfd (D : Z -> bool) (env : schema) (SL CL : Z) (t : ty) (v : value)
  {struct v} : bool :=
  match t, v with
  | TList et, VList l => len_le l CL && forallb (wfd D env SL CL et) l
  | TSet et, VSet l =>
      len_le l CL && hashable et && nodup_keys l && forallb (wfd D env SL CL et) l
  | TMap kt vt, VMap l =>
      len_le l CL && hashable kt && nodup_keys (map fst l)
      && forallb (fun kv => match kv with
                            | (k, x) => wfd D env SL CL kt k && wfd D env SL CL vt x
                            end) l
  | TStruct n, VStruct m fs =>
      (n =? m)%nat
      && match nth_error env n with
         | None => false
         | Some ds =>
             (fix go fs ds :=
                match fs, ds with
                | [], [] => true
                | f :: fs', d :: ds' =>
                    match f with
                    | None => negb (f_req d)
                    | Some x => wfd D env SL CL (f_ty d) x
                    end && go fs' ds'
                | _, _ => false
                end) fs ds
         end
  | _, _ => base_okd D SL t v
  end.

(** Every double admitted. *)
Notation base_ok := (base_okd (fun _ => true)).
Notation wf := (wfd (fun _ => true)).

(** Number of structs nested in one another. *)
Fixpoint sdepth (v : value) : nat :=
  match v with
  | VList l | VSet l => fold_right (fun x a => Nat.max (sdepth x) a) O l
  | VMap l =>
      fold_right
        (fun kv a => match kv with
                     | (k, x) => Nat.max (Nat.max (sdepth k) (sdepth x)) a
                     end) O l
  | VStruct _ fs =>
      S (fold_right
           (fun f a => match f with
                       | Some x => Nat.max (sdepth x) a
                       | None => a
                       end) O fs)
  | _ => O
  end.

(** Nesting of values of any kind. *)
Fixpoint vdepth (v : value) : nat :=
  match v with
  | VList l | VSet l => S (fold_right (fun x a => Nat.max (vdepth x) a) O l)
  | VMap l =>
      S (fold_right
           (fun kv a => match kv with
                        | (k, x) => Nat.max (Nat.max (vdepth k) (vdepth x)) a
                        end) O l)
  | VStruct _ fs =>
      S (fold_right
           (fun f a => match f with
                       | Some x => Nat.max (vdepth x) a
                       | None => a
                       end) O fs)
  | _ => 1%nat
  end.

(** Every byte string inside [v] satisfies [p]. *)
Fixpoint all_bin (p : list byte -> bool) (v : value) : bool :=
  match v with
  | VBin b => p b
  | VList l | VSet l => forallb (all_bin p) l
  | VMap l =>
      forallb (fun kv => match kv with
                         | (k, x) => all_bin p k && all_bin p x
                         end) l
  | VStruct _ fs =>
      forallb (fun f => match f with Some x => all_bin p x | None => true end)
              fs
  | _ => true
  end.

(** * What a reader gets

    [proj envW envR tW tR v] is the object a program with schema [envR]
    expecting type [tR] should get when [v] was written by a program with
    schema [envW] as type [tW]: field by field, by id; a field the writer did
    not send, or sent with another type, takes the reader's default; what the
    reader does not know is dropped. *)
Section Proj.
Variables envW envR : schema.

Fixpoint proj (tW tR : ty) (v : value) {struct v} : value :=
  match tW, tR, v with
  | TList a, TList b, VList l => VList (map (proj a b) l)
  | TSet a, TSet b, VSet l => VSet (map (proj a b) l)
  | TMap ka va, TMap kb vb, VMap l =>
      VMap (map (fun kv => match kv with
                           | (k, x) => (proj ka kb k, proj va vb x)
                           end) l)
  | TStruct _, TStruct m, VStruct n fs =>
      match nth_error envW n, nth_error envR m with
      | Some dsW, Some dsR =>
          VStruct m
            (map (fun dR =>
                    (fix look fs ds :=
                       match fs, ds with
                       | f :: fs', d :: ds' =>
                           match f with
                           | Some x =>
                               if (f_id d =? f_id dR)
                                  && (code (f_ty d) =? code (f_ty dR))
                               then Some (proj (f_ty d) (f_ty dR) x)
                               else look fs' ds'
                           | None => look fs' ds'
                           end
                       | _, _ => f_def dR
                       end) fs dsW)
                 dsR)
      | _, _ => v
      end
  | _, _, _ => v
  end.

(** Two types a reader and a writer may use for the same field: equal, up to
    structs related by [R]. *)
Fixpoint compat (R : nat -> nat -> bool) (a b : ty) : bool :=
  match a, b with
  | TBool, TBool | TByte, TByte | TI16, TI16 | TI32, TI32 | TI64, TI64
  | TDouble, TDouble | TString, TString | TBinary, TBinary | TUuid, TUuid
    => true
  | TList x, TList y | TSet x, TSet y => compat R x y
  | TMap k x, TMap l y => compat R k l && compat R x y
  | TStruct n, TStruct m => R n m
  | _, _ => false
  end.

(** Field lists of two versions of a struct: where ids and wire types agree,
    the types are compatible. *)
Definition compat_fields (R : nat -> nat -> bool) (dsW dsR : list fielddef)
  : Prop :=
  forall dW dR, In dW dsW -> In dR dsR -> f_id dW = f_id dR ->
    code (f_ty dW) = code (f_ty dR) -> compat R (f_ty dW) (f_ty dR) = true.

(** [R] relates structs that are versions of one another. *)
Definition compat_env (R : nat -> nat -> bool) : Prop :=
  forall n m, R n m = true ->
    exists dsW dsR, nth_error envW n = Some dsW /\ nth_error envR m = Some dsR
      /\ compat_fields R dsW dsR.

End Proj.

(** Field ids are admitted by [I], and distinct within a struct. *)
Definition schema_okd (I : Z -> bool) (env : schema) : Prop :=
  forall n ds, nth_error env n = Some ds ->
    NoDup (map f_id ds) /\ forall d, In d ds -> I (f_id d) = true.

(** Field ids are 16-bit (the compiler only warns about others, see C80). *)
Definition id16 : Z -> bool := between (-32768) 32767.
Notation schema_ok := (schema_okd id16).

(** What a reader has to skip on the way must be skippable: nested at most
    [k] deep, byte strings satisfying [p]. *)
Fixpoint drop_ok (envW envR : schema) (p : list byte -> bool) (k : nat)
    (tW tR : ty) (v : value) {struct v} : bool :=
  match tW, tR, v with
  | TList a, TList b, VList l => forallb (drop_ok envW envR p k a b) l
  | TMap _ va, TMap _ vb, VMap l =>
      forallb (fun kv => match kv with
                         | (_, x) => drop_ok envW envR p k va vb x
                         end) l
  | TStruct _, TStruct m, VStruct n fs =>
      match nth_error envW n, nth_error envR m with
      | Some dsW, Some dsR =>
          (fix go fs ds :=
             match fs, ds with
             | f :: fs', d :: ds' =>
                 match f with
                 | Some x =>
                     match find (fun dR => (f_id d =? f_id dR)
                                  && (code (f_ty d) =? code (f_ty dR))) dsR with
                     | Some dR => drop_ok envW envR p k (f_ty d) (f_ty dR) x
                     | None => (vdepth x <=? k)%nat && all_bin p x
                     end
                 | None => true
                 end && go fs' ds'
             | _, _ => true
             end) fs dsW
      | _, _ => true
      end
  | _, _, _ => true
  end.

(** * Same schema on both sides *)

(** [v] with every unset attribute, at any depth, replaced by its declared
    default (if there is one). *)
Fixpoint with_defaults (env : schema) (t : ty) (v : value) {struct v} : value :=
  match t, v with
  | TList et, VList l => VList (map (with_defaults env et) l)
  | TMap _ vt, VMap l =>
      VMap (map (fun kv => match kv with
                           | (k, x) => (k, with_defaults env vt x)
                           end) l)
  | TStruct _, VStruct n fs =>
      match nth_error env n with
      | None => v
      | Some ds =>
          VStruct n
            ((fix go fs ds :=
                match fs, ds with
                | f :: fs', d :: ds' =>
                    match f with
                    | Some x => Some (with_defaults env (f_ty d) x)
                    | None => f_def d
                    end :: go fs' ds'
                | _, _ => []
                end) fs ds)
      end
  | _, _ => v
  end.

(** Every attribute with a default is set. *)
Fixpoint no_missing_default (env : schema) (t : ty) (v : value) {struct v}
  : bool :=
  match t, v with
  | TList et, VList l => forallb (no_missing_default env et) l
  | TMap _ vt, VMap l =>
      forallb (fun kv => match kv with
                         | (_, x) => no_missing_default env vt x
                         end) l
  | TStruct _, VStruct n fs =>
      match nth_error env n with
      | None => true
      | Some ds =>
          (fix go fs ds :=
             match fs, ds with
             | f :: fs', d :: ds' =>
                 match f with
                 | Some x => no_missing_default env (f_ty d) x
                 | None => match f_def d with Some _ => false | None => true end
                 end && go fs' ds'
             | _, _ => true
             end) fs ds
      end
  | _, _ => true
  end.

(** Every struct mentioned in a type exists. *)
Fixpoint closed_ty (env : schema) (t : ty) : bool :=
  match t with
  | TList a | TSet a => closed_ty env a
  | TMap a b => closed_ty env a && closed_ty env b
  | TStruct n => (n <? length env)%nat
  | _ => true
  end.

Definition schema_closed (env : schema) : bool :=
  forallb (forallb (fun d => closed_ty env (f_ty d))) env.
