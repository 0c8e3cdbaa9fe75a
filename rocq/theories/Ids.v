(** How the compiler numbers fields and enum values and settles which fields are
    required (compiler/cpp/src/thrift/thrifty.yy, parse/t_struct.h,
    parse/t_function.h): from the declarations of a file to the fields the
    Python generator works with.  No proofs here.

    Left out: types of defaults (C72 has constants), the other tests of names
    (C68, C74, C76), xsd attributes (whose list of fields resets the counter),
    and counters beyond 32 bits, which wrap here. *)
From Coq Require Import String.
From Coq Require Import ZArith List Bool.
From Verif Require Import Base Proto.
Import ListNotations.
Open Scope Z_scope.
Open Scope list_scope.

(** t_field::e_req, parse/t_field.h 72 *)
Inductive freq := Required | Optional | Plain.

(** A field as written.  [d_key]: the number before the colon, any 64-bit
    integer (thriftl.ll 251-272 refuses larger ones). *)
Record decl := mkdecl {
  d_key : option Z; d_req : freq; d_ty : ty; d_name : string; d_val : option value }.

(** t_field *)
Record member := mkmem {
  k_id : Z; k_req : freq; k_ty : ty; k_name : string; k_val : option value }.

(** What [pwarning] is called for. *)
Inductive warning := WNoKey | WNonpositive | WDiffers | WRange.

(** static_cast<int32_t> *)
Definition cast32 (z : Z) : Z := (z + 2147483648) mod 4294967296 - 2147483648.

(** The options --allow-neg-keys, -strict (main.cc 1132, 1139), and g_arglist
    (thrifty.yy 719-724: inside a service). *)
Record popts := mkopts { o_neg : bool; o_strict : bool; o_args : bool }.

Definition out_of_range (v : Z) : list warning :=
  if (v <? -32768) || (32767 <? v) then [WRange] else [].

(** FieldIdentifier, thrifty.yy 1018-1066; [y] is y_field_val.  The value,
    whether it was assigned, the new y_field_val. *)
Definition field_id (o : popts) (y : Z) (key : option Z) : Z * bool * Z * list warning :=
  match key with
  | Some k =>
      if k <=? 0 then
        if o_neg o then
          (cast32 k, false, cast32 (k - 1),
           (if k =? y then [] else [WDiffers]) ++ out_of_range (cast32 k))
        else (y, true, cast32 (y - 1), WNonpositive :: out_of_range y)
      else (cast32 k, false, y, out_of_range (cast32 k))
  | None => (y, true, cast32 (y - 1), out_of_range y)
  end.

(** FieldRequiredness, 1078-1097 *)
Definition field_req (o : popts) (r : freq) : freq :=
  match r with Optional => if o_args o then Plain else Optional | _ => r end.

(** t_struct::append, parse/t_struct.h 77-99: false when the key or the name is
    there already. *)
Definition append (m : member) (l : list member) : option (list member) :=
  if existsb (fun x => k_id x =? k_id m) l then None
  else if existsb (fun x => String.eqb (k_name x) (k_name m)) l then None
  else Some (l ++ [m]).

(** FieldList and Field, thrifty.yy 799-851.  None: the compiler exits. *)
Fixpoint parse_fields (o : popts) (ds : list decl) (y : Z) (l : list member)
    (ws : list warning) : option (list member * list warning) :=
  match ds with
  | [] => Some (l, ws)
  | d :: r =>
      match field_id o y (d_key d) with
      | (v, auto, y', w) =>
          if auto && o_strict o then None
          else
            match append (mkmem v (field_req o (d_req d)) (d_ty d) (d_name d) (d_val d)) l with
            | Some l' => parse_fields o r y' l' (ws ++ w ++ if auto then [WNoKey] else [])
            | None => None
            end
      end
  end.
(** 812-817: the counter starts at -1 *)
Definition parse_list (o : popts) (ds : list decl) : option (list member * list warning) :=
  parse_fields o ds (-1) [] [].

(** members_in_id_order_: insertion behind what is not greater
    (std::equal_range, t_struct.h 79-96). *)
Fixpoint insert_id (m : member) (l : list member) : list member :=
  match l with
  | [] => [m]
  | x :: r => if k_id m <? k_id x then m :: l else x :: insert_id m r
  end.
Definition in_id_order (l : list member) : list member :=
  fold_left (fun acc m => insert_id m acc) l [].

Definition with_req (r : freq) (m : member) : member :=
  mkmem (k_id m) r (k_ty m) (k_name m) (k_val m).

(** validate_union_member (t_struct.h 174-200), when the struct gets its name:
    every member becomes optional; a second default is an error. *)
Definition as_union (l : list member) : option (list member) :=
  if (1 <? Z.of_nat (List.length (filter (fun m => match k_val m with Some _ => true | None => false end) l)))
  then None else Some (map (with_req Optional) l).

(** validate_method_exception_field (202-214), from t_function's constructor. *)
Definition as_throws (l : list member) : list member :=
  map (fun m => match k_req m with Required => with_req Plain m | _ => m end) l.

(** Where a list of fields stands. *)
Inductive place := InStruct | InUnion | InArgs | InThrows.

(** Struct, Xception, Function, Throws (thrifty.yy 625-640, 684-697, 755-797) *)
Definition compile (neg strict : bool) (p : place) (ds : list decl) : option (list member) :=
  let o := mkopts neg strict (match p with InArgs | InThrows => true | _ => false end) in
  match parse_list o ds with
  | None => None
  | Some (l, _) =>
      match p with
      | InUnion => as_union l
      | InThrows => Some (as_throws l)
      | _ => Some l
      end
  end.

(** The fields as the generated reader and writer have them
    (get_sorted_members, t_py_generator.cc 1114, 1211). *)
Definition field_of (m : member) : fielddef :=
  mkfield (k_id m) (k_ty m) (match k_req m with Required => true | _ => false end) (k_val m).
Definition generated (l : list member) : list fielddef := map field_of (in_id_order l).

(** EnumDefList and EnumValue, thrifty.yy 470-522: [y] is y_enum_val, which
    starts at -1.  None: [failure]. *)
Fixpoint enum_values (y : Z) (ds : list (string * option Z)) : option (list (string * Z)) :=
  match ds with
  | [] => Some []
  | (n, k) :: r =>
      match (match k with
             | Some v => if (v <? -2147483648) || (2147483647 <? v) then None else Some v
             | None => if y =? 2147483647 then None else Some (y + 1)
             end) with
      | Some v =>
          match enum_values v r with Some l => Some ((n, v) :: l) | None => None end
      | None => None
      end
  end.
(** 456-466: g_scope->add_constant (parse/t_scope.h 74-80) refuses a second
    constant with the name. *)
Fixpoint names_distinct (l : list string) : bool :=
  match l with
  | [] => true
  | n :: r => negb (existsb (String.eqb n) r) && names_distinct r
  end.
Definition compile_enum (ds : list (string * option Z)) : option (list (string * Z)) :=
  match enum_values (-1) ds with
  | Some l => if names_distinct (map fst l) then Some l else None
  | None => None
  end.
