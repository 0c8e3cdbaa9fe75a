(** The classes the Python generator emits, attribute by attribute: names and
    their escapes, the constructor, [__setattr__], the [read] and [write]
    methods, [__eq__] and [__hash__], for mutable and immutable classes, with
    and without the [slots] and [enum] options; and the C encoder and decoder
    of ext/ working on such objects.  No proofs here. *)
From Coq Require Import String Ascii.
From Coq Require Import ZArith List Bool.
From Coq Require Import Init.Byte.
From Verif Require Import Base Bytes Utf8 Proto Dynamic Ext ExtRead.
Import ListNotations.
Open Scope Z_scope.

(** * Names *)

(** python_keywords_ (t_py_generator.cc 55-58). *)
Definition python_keywords_ : list string :=
  ["False"; "None"; "True"; "and"; "as"; "assert"; "break"; "class";
   "continue"; "def"; "del"; "elif"; "else"; "except"; "exec"; "finally";
   "for"; "from"; "global"; "if"; "import"; "in"; "is"; "lambda"; "nonlocal";
   "not"; "or"; "pass"; "print"; "raise"; "return"; "try"; "while"; "with";
   "yield"]%string.

Definition mem (n : string) (l : list string) : bool := existsb (String.eqb n) l.

(** maybe_escape_identifier (t_py_generator.cc 381-386). *)
Definition maybe_escape_identifier (n : string) : string :=
  if mem n python_keywords_ then (n ++ "_")%string else n.

(** * Types, classes, values *)

(** Declared types.  [GEnum e td]: an enum, [td] telling whether the field
    names it through a typedef.  Containers carry their [python.immutable]
    annotation (is_immutable, t_py_generator.cc 294-304). *)
Inductive gty :=
| GBase (t : ty)
| GEnum (e : nat) (td : bool)
| GList (imm : bool) (t : gty)
| GSet (imm : bool) (t : gty)
| GMap (imm : bool) (k v : gty)
| GStruct (n : nat).

(** A field.  Fields are listed in the order of their ids; the order of
    declaration matters to positional arguments only, which are not modelled.
    A default is given without regard to the [enum] option. *)
Record gfield := mkgfield {
  g_name : string;
  g_id : Z;
  g_ty : gty;
  g_req : bool;
  g_def : option value }.

(** A struct, union or exception.  [k_imm] is is_immutable: exceptions are
    immutable unless annotated otherwise. *)
Record gclass := mkgclass {
  k_name : string;
  k_exc : bool;
  k_imm : bool;
  k_fields : list gfield }.

(** An enum: name of the class, its members. *)
Record genum := mkgenum { e_name : string; e_members : list (string * Z) }.

(** What the model of the generated code works on.  [o_slots], [o_enum]: the
    generator options.  The [dynamic], [old_style] and [no_utf8strings]
    options are not given. *)
Record gprog := mkgprog {
  o_slots : bool;
  o_enum : bool;
  p_enums : list genum;
  p_classes : list gclass }.

(** Python objects.  [PVal] holds an object of a base type.  [PMember e z]: a
    member of an IntEnum class.  [PList true] is a tuple, [PSet true] a
    frozenset, [PMap true] a TFrozenDict.  An object has its attributes by
    name, in instance dict or slots alike; [None] is the value None. *)
Inductive pv :=
| PVal (v : value)
| PMember (e : nat) (z : Z)
| PList (imm : bool) (l : list pv)
| PSet (imm : bool) (l : list pv)
| PMap (imm : bool) (l : list (pv * pv))
| PObj (n : nat) (a : list (string * option pv)).

Definition attrs := list (string * option pv).

Fixpoint assoc {A} (n : string) (l : list (string * A)) : option A :=
  match l with
  | [] => None
  | (m, v) :: r => if String.eqb n m then Some v else assoc n r
  end.

(** Assignment in a dict: an existing name keeps its place. *)
Fixpoint upd {A} (l : list (string * A)) (n : string) (v : A) : list (string * A) :=
  match l with
  | [] => [(n, v)]
  | (m, w) :: r => if String.eqb n m then (m, v) :: r else (m, w) :: upd r n v
  end.

(** The class as the rest of the development sees it. *)
Fixpoint ety (t : gty) : ty :=
  match t with
  | GBase t => t
  | GEnum _ _ => TI32
  | GList _ t => TList (ety t)
  | GSet _ t => TSet (ety t)
  | GMap _ k v => TMap (ety k) (ety v)
  | GStruct n => TStruct n
  end.

Definition fdef (f : gfield) : fielddef :=
  mkfield (g_id f) (ety (g_ty f)) (g_req f) (g_def f).

Definition erased (p : gprog) : schema :=
  map (fun k => map fdef (k_fields k)) (p_classes p).

Section Prog.
Variable p : gprog.

(** [Enum(z)]: ValueError for a value that is no member.  A value is looked up
    by equality; only ints are modelled. *)
Definition is_member (e : nat) (z : Z) : bool :=
  match nth_error (p_enums p) e with
  | Some d => existsb (fun m => snd m =? z) (e_members d)
  | None => false
  end.
Definition enum_call (e : nat) (v : pv) : outcome pv :=
  match v with
  | PVal (VInt z) | PMember _ z =>
      if is_member e z then Ok (PMember e z) else Raise EValueError
  | _ => Raise EValueError
  end.

(** [Enum.__members__.get(v)]: the mapping goes from names to members. *)
Definition codepoints (n : string) : list Z :=
  map (fun c => Z.of_nat (nat_of_ascii c)) (list_ascii_of_string n).
Definition members_get (e : nat) (v : pv) : outcome (option pv) :=
  match v with
  | PVal (VStr s) =>
      match nth_error (p_enums p) e with
      | Some d =>
          match find (fun m => if list_eq_dec Z.eq_dec (codepoints (fst m)) s
                               then true else false) (e_members d) with
          | Some (_, z) => Ok (Some (PMember e z))
          | None => Ok None
          end
      | None => Ok None
      end
  | PList false _ | PSet false _ | PMap false _ => Raise ETypeError
  | _ => Ok None
  end.

(** [hasattr(v, 'value')] *)
Definition has_value (v : pv) : bool :=
  match v with
  | PMember _ _ => true
  | PObj _ a => match assoc "value" a with Some _ => true | None => false end
  | _ => false
  end.

(** How the Python code of this program represents a value the rest of the
    development writes as [v]. *)
Fixpoint lift (t : gty) (v : value) {struct v} : pv :=
  match t, v with
  | GEnum e _, VInt z => if o_enum p then PMember e z else PVal v
  | GList i et, VList l => PList i (map (lift et) l)
  | GSet i et, VSet l => PSet i (map (lift et) l)
  | GMap i kt vt, VMap l =>
      PMap i (map (fun kv => match kv with
                             | (k, x) => (lift kt k, lift vt x)
                             end) l)
  | GStruct _, VStruct n fs =>
      match nth_error (p_classes p) n with
      | None => PObj n []
      | Some k =>
          PObj n ((fix go fs gs :=
                     match fs, gs with
                     | f :: fs', g :: gs' =>
                         (g_name g, match f with
                                    | Some x => Some (lift (g_ty g) x)
                                    | None => None
                                    end) :: go fs' gs'
                     | _, _ => []
                     end) fs (k_fields k))
      end
  | _, _ => PVal v
  end.

(** [lift] for the attributes of an object of class [k], under their declared
    names. *)
Fixpoint lift_fields (fs : list (option value)) (gs : list gfield) : attrs :=
  match fs, gs with
  | f :: fs', g :: gs' => (g_name g, option_map (lift (g_ty g)) f) :: lift_fields fs' gs'
  | _, _ => []
  end.

(** * Attributes *)

(** __slots__ (t_py_generator.cc 881-889): the names are not escaped. *)
Definition in_slots (k : gclass) (n : string) : bool :=
  mem n (map g_name (k_fields k)).

(** object.__setattr__.  With slots, an object has no instance dict, unless it
    is an exception: BaseException gives it one. *)
Definition base_setattr (k : gclass) (a : attrs) (n : string) (v : option pv)
  : outcome attrs :=
  if o_slots p && negb (k_exc k) && negb (in_slots k n)
  then Raise EAttributeError
  else Ok (upd a n v).

(** The enum fields the generated code knows: [type->is_enum()] is false for a
    typedef (t_py_generator.cc 921, 995, 1007; parse/t_typedef.h). *)
Definition direct_enum (f : gfield) : option nat :=
  match g_ty f with GEnum e false => Some e | _ => None end.

Definition enum_field (k : gclass) (n : string) : option nat :=
  match find (fun f => String.eqb n (g_name f)
                       && match direct_enum f with Some _ => true | None => false end)
             (k_fields k) with
  | Some f => direct_enum f
  | None => None
  end.

Definition has_enum (k : gclass) : bool :=
  existsb (fun f => match direct_enum f with Some _ => true | None => false end)
          (k_fields k).

(** [setattr(obj, n, v)]: __setattr__ as generated (t_py_generator.cc 943-961
    for immutable classes, 990-1017 with the [enum] option). *)
Definition setattr (k : gclass) (a : attrs) (n : string) (v : option pv)
  : outcome attrs :=
  if k_imm k then
    if o_slots p && negb (in_slots k n) then base_setattr k a n v
    else Raise ETypeError
  else if o_enum p then
    match enum_field k n, v with
    | Some e, Some x =>
        if has_value x then base_setattr k a n v
        else match enum_call e x with
             | Ok m => base_setattr k a n (Some m)
             | Raise ex => Raise ex
             | Diverge => Diverge
             end
    | _, _ => base_setattr k a n v
    end
  else base_setattr k a n v.

(** [delattr(obj, n)] (t_py_generator.cc 962-978). *)
Fixpoint del {A} (l : list (string * A)) (n : string) : list (string * A) :=
  match l with
  | [] => []
  | (m, w) :: r => if String.eqb n m then r else (m, w) :: del r n
  end.
Definition base_delattr (a : attrs) (n : string) : outcome attrs :=
  match assoc n a with Some _ => Ok (del a n) | None => Raise EAttributeError end.
Definition delattr (k : gclass) (a : attrs) (n : string) : outcome attrs :=
  if k_imm k then
    if o_slots p && negb (in_slots k n) then base_delattr a n
    else Raise ETypeError
  else base_delattr a n.

(** [getattr(obj, n)].  Attributes of the class are not looked at: no field has
    the name of one (see [method]). *)
Definition getattr (a : attrs) (n : string) : outcome (option pv) :=
  match assoc n a with Some v => Ok v | None => Raise EAttributeError end.

(** [obj.m(...)] finds an attribute of the object first: a field of that name
    hides the method, and what it holds is not callable. *)
Definition method {S} (a : attrs) (m : string) : SM S unit :=
  match assoc m a with Some _ => raise ETypeError | None => ret tt end.

(** * The constructor *)

(** The value a field of [self] gets from the argument [v]
    (t_py_generator.cc 920-937).  An immutable class goes around its own
    __setattr__ and uses the declared name; a mutable one assigns under the
    escaped name. *)
Definition init_field (k : gclass) (f : gfield) (v : option pv) (a : attrs)
  : outcome attrs :=
  if k_imm k then
    match (if o_enum p then direct_enum f else None) with
    | Some e =>
        match v with
        | None => base_setattr k a (g_name f) None   (* .get(None) is None *)
        | Some x =>
            if has_value x then base_setattr k a (g_name f) v
            else match members_get e x with
                 | Ok m => base_setattr k a (g_name f) m
                 | Raise ex => Raise ex
                 | Diverge => Diverge
                 end
        end
    | None => base_setattr k a (g_name f) v
    end
  else setattr k a (maybe_escape_identifier (g_name f)) v.

Fixpoint init_fields (k : gclass) (gs : list gfield) (kw : attrs) (a : attrs)
  : outcome attrs :=
  match gs with
  | [] => Ok a
  | f :: r =>
      let v := match assoc (maybe_escape_identifier (g_name f)) kw with
               | Some v => v
               | None => option_map (lift (g_ty f)) (g_def f)
               end in
      match init_field k f v a with
      | Ok a' => init_fields k r kw a'
      | Raise e => Raise e
      | Diverge => Diverge
      end
  end.

(** [cls] called with the keyword arguments [kw] (t_py_generator.cc 896-941, declare_argument 2780-2794).  The
    parameters carry the escaped names; an unknown keyword is a TypeError.
    Defaults are values here.  As objects they are shared between all that are
    made without the field, and a class with a negative field id and a default
    that is not of base or enum type cannot be called at all (910-917); see
    Defaults.v (C73).  Such classes, and changes to a shared default, are
    assumed away. *)
Definition construct (k : gclass) (kw : attrs) : outcome attrs :=
  if forallb (fun a => mem (fst a) (map (fun f => maybe_escape_identifier (g_name f))
                                        (k_fields k))) kw
  then init_fields k (k_fields k) kw []
  else Raise ETypeError.

Definition lift_out {S A} (o : outcome A) : SM S A :=
  match o with Ok a => ret a | Raise e => raise e | Diverge => diverge end.

(** * [read] as generated *)

(** [==] on set elements and dict keys; the elements modelled are of base or
    enum types.  A member of an IntEnum equals and hashes as its int. *)
Definition base_of (x : pv) : value :=
  match x with
  | PVal v => v
  | PMember _ z => VInt z
  | _ => VStruct 0 []
  end.
Definition pkey_eqb (x y : pv) : bool := key_eqb (base_of x) (base_of y).
Definition pset_add (l : list pv) (v : pv) : list pv :=
  if existsb (pkey_eqb v) l then l else l ++ [v].
Fixpoint pdict_set (l : list (pv * pv)) (k v : pv) : list (pv * pv) :=
  match l with
  | [] => [(k, v)]
  | (k', v') :: r =>
      if pkey_eqb k k' then (k', v) :: r else (k', v') :: pdict_set r k v
  end.

(** Tuples, frozensets, TFrozenDicts and immutable structs could be set
    elements too; here only base and enum types can. *)
Definition ghashable (t : gty) : bool := hashable (ety t).

Section Read.
Context {X : Type}.
Variable P : proto X.

(** Use of a global or builtin name [n] in the body of [read].  [sh] are the
    names bound by assignments in that body, which hide it; what they hold
    then makes the use fail with [e]. *)
Definition use (sh : list string) (n : string) (e : exn) : M X unit :=
  if mem n sh then raise e else ret tt.

Definition enum_name (e : nat) : string :=
  match nth_error (p_enums p) e with Some d => e_name d | None => EmptyString end.
Definition class_name (n : nat) : string :=
  match nth_error (p_classes p) n with Some k => k_name k | None => EmptyString end.
Definition class_imm (n : nat) : bool :=
  match nth_error (p_classes p) n with Some k => k_imm k | None => false end.

(** generate_deserialize_field, _struct, _container (t_py_generator.cc
    2361-2547), given [rs] for struct classes.  Names of temporaries
    ([_size12]) are assumed not to be field names, and the types to be of this
    program (type_name 2876-2886 qualifies the others). *)
Fixpoint gread_ty (sh : list string) (rs : nat -> M X pv) (fuel : nat) (t : gty)
  : M X pv :=
  match t with
  | GBase bt =>
      (match bt with TString => use sh "sys" EAttributeError | _ => ret tt end) ;;;
      v <- read_base P bt ;;
      ret (PVal v)
  | GEnum e _ =>
      z <- readI32 P ;;
      if o_enum p then
        use sh (enum_name e) ETypeError ;;;
        lift_out (enum_call e (PVal (VInt z)))
      else ret (PVal (VInt z))
  | GList imm et =>
      '(_, size) <- readListBegin P ;;
      use sh "range" ETypeError ;;;
      l <- repeatM fuel size
             (fun acc => v <- gread_ty sh rs fuel et ;; ret (acc ++ [v])) [] ;;
      (if imm then use sh "tuple" ETypeError else ret tt) ;;;
      readListEnd P ;;;
      ret (PList imm l)
  | GSet imm et =>
      use sh "set" ETypeError ;;;
      '(_, size) <- readSetBegin P ;;
      use sh "range" ETypeError ;;;
      l <- repeatM fuel size
             (fun acc => v <- gread_ty sh rs fuel et ;;
                         if ghashable et then ret (pset_add acc v)
                         else raise ETypeError) [] ;;
      readSetEnd P ;;;
      (if imm then use sh "frozenset" ETypeError else ret tt) ;;;
      ret (PSet imm l)
  | GMap imm kt vt =>
      '(_, _, size) <- readMapBegin P ;;
      use sh "range" ETypeError ;;;
      l <- repeatM fuel size
             (fun acc => k <- gread_ty sh rs fuel kt ;;
                         v <- gread_ty sh rs fuel vt ;;
                         if ghashable kt then ret (pdict_set acc k v)
                         else raise ETypeError) [] ;;
      readMapEnd P ;;;
      (if imm then use sh "TFrozenDict" ETypeError else ret tt) ;;;
      ret (PMap imm l)
  | GStruct n =>
      use sh (class_name n) (if class_imm n then EAttributeError else ETypeError) ;;;
      rs n
  end.

Fixpoint gfind (gs : list gfield) (fid : Z) : option gfield :=
  match gs with
  | [] => None
  | g :: r => if fid =? g_id g then Some g else gfind r fid
  end.

(** The loop of a generated reader (t_py_generator.cc 1142-1183).  [sh] are
    the field names assigned to in the body (none for a mutable class),
    [begin] is run on what readFieldBegin returned, [put] stores a value. *)
Fixpoint gread_fields {A} (fuel skfuel : nat) (sh : list string)
    (rv : gty -> M X pv) (gs : list gfield)
    (begin : A -> Z -> Z -> A) (put : gfield -> pv -> A -> outcome A) (acc : A)
  : M X A :=
  match fuel with
  | O => diverge
  | S f =>
      use sh "iprot" EAttributeError ;;;
      '(ftype, fid) <- readFieldBegin P ;;
      use sh "TType" EAttributeError ;;;
      let acc := begin acc ftype fid in
      if ftype =? T_STOP then ret acc
      else match gfind gs fid with
           | Some g =>
               if ftype =? code (ety (g_ty g)) then
                 v <- rv (g_ty g) ;;
                 acc <- lift_out (put g v acc) ;;
                 readFieldEnd P ;;;
                 gread_fields f skfuel sh rv gs begin put acc
               else
                 skip P skfuel SKIP_DEPTH ftype ;;;
                 readFieldEnd P ;;;
                 gread_fields f skfuel sh rv gs begin put acc
           | None =>
               skip P skfuel SKIP_DEPTH ftype ;;;
               readFieldEnd P ;;;
               gread_fields f skfuel sh rv gs begin put acc
           end
  end.

(** [(fname, ftype, fid) = iprot.readFieldBegin()] in the body of an immutable
    class's [read]: assignments to local variables.  The protocols return None
    for the name. *)
Definition bind_header (env : attrs) (ftype fid : Z) : attrs :=
  upd (upd (upd env "fname" None)
           "ftype" (Some (PVal (VInt ftype))))
      "fid" (Some (PVal (VInt fid))).

(** Lines 1126-1138: each field is a local variable, first its default. *)
Definition init_locals (gs : list gfield) : attrs :=
  fold_left (fun env f => upd env (maybe_escape_identifier (g_name f))
                              (option_map (lift (g_ty f)) (g_def f))) gs [].

(** The arguments of [return cls(...)], lines 1189-1197. *)
Definition locals_kw (gs : list gfield) (env : attrs) : attrs :=
  map (fun f => let n := maybe_escape_identifier (g_name f) in
                (n, match assoc n env with Some v => v | None => None end)) gs.

(** [read] (t_py_generator.cc 1095-1205), the branch without C decoder.  For a
    mutable class this is [cls()] and then its [read]; a container or struct
    field is assigned before it is filled there, after it is filled here,
    which only shows if the assignment fails. *)
Fixpoint gread_struct (dfuel fuel : nat) (n : nat) : M X pv :=
  match dfuel with
  | O => diverge
  | S d =>
      match nth_error (p_classes p) n with
      | None => raise EAttributeError
      | Some k =>
          let gs := k_fields k in
          if k_imm k then
            let sh := map (fun f => maybe_escape_identifier (g_name f)) gs in
            with_depth (
              readStructBegin P ;;;
              env <- gread_fields fuel fuel sh
                       (gread_ty sh (gread_struct d fuel) fuel) gs
                       bind_header
                       (fun f v env => Ok (upd env (maybe_escape_identifier (g_name f))
                                                   (Some v)))
                       (init_locals gs) ;;
              readStructEnd P ;;;
              use sh "cls" ETypeError ;;;
              a <- lift_out (construct k (locals_kw gs env)) ;;
              ret (PObj n a))
          else
            a0 <- lift_out (construct k []) ;;
            method a0 "read" ;;;
            with_depth (
              readStructBegin P ;;;
              a <- gread_fields fuel fuel []
                     (gread_ty [] (gread_struct d fuel) fuel) gs
                     (fun a _ _ => a)
                     (fun f v a => setattr k a (maybe_escape_identifier (g_name f))
                                           (Some v))
                     a0 ;;
              readStructEnd P ;;;
              ret (PObj n a))
      end
  end.

End Read.

(** * [write] as generated *)

Section Write.
Context {X : Type}.
Variable P : proto X.

(** validate (t_py_generator.cc 1264-1285) *)
Fixpoint gvalidate (gs : list gfield) (a : attrs) : outcome unit :=
  match gs with
  | [] => Ok tt
  | f :: r =>
      if g_req f then
        match getattr a (maybe_escape_identifier (g_name f)) with
        | Ok None => Raise (EProtocol TP_UNKNOWN)
        | Ok (Some _) => gvalidate r a
        | Raise e => Raise e
        | Diverge => Diverge
        end
      else gvalidate r a
  end.

(** The fields of an object (t_py_generator.cc 1231-1246).  [ws] gives, per
    attribute, what writes its value. *)
Fixpoint gwrite_fields (ws : list (string * option (gty -> M X unit)))
    (gs : list gfield) : M X unit :=
  match gs with
  | [] => ret tt
  | f :: r =>
      match assoc (maybe_escape_identifier (g_name f)) ws with
      | None => raise EAttributeError
      | Some None => gwrite_fields ws r
      | Some (Some w) =>
          writeFieldBegin P (code (ety (g_ty f))) (g_id f) ;;;
          w (g_ty f) ;;;
          writeFieldEnd P ;;;
          gwrite_fields ws r
      end
  end.

(** generate_serialize_field, _struct, _container and the struct writer
    (t_py_generator.cc 1209-1262, 2555-2712), the branch without C encoder.
    With the [enum] option a member is written as [x.value], which a plain int
    does not have.  A member is an int to the other writers. *)
Fixpoint gwrite (t : gty) (x : pv) {struct x} : M X unit :=
  match t, x with
  | GList _ et, PList _ l =>
      writeListBegin P (code (ety et)) (Z.of_nat (length l)) ;;;
      mapM_ (gwrite et) l ;;;
      writeListEnd P
  | GSet _ et, PSet _ l =>
      writeSetBegin P (code (ety et)) (Z.of_nat (length l)) ;;;
      mapM_ (gwrite et) l ;;;
      writeSetEnd P
  | GMap _ kt vt, PMap _ l =>
      writeMapBegin P (code (ety kt)) (code (ety vt)) (Z.of_nat (length l)) ;;;
      mapM_ (fun kv => match kv with
                       | (k, y) => gwrite kt k ;;; gwrite vt y
                       end) l ;;;
      writeMapEnd P
  | GStruct _, PObj n a =>
      method a "write" ;;;
      match nth_error (p_classes p) n with
      | None => raise EAttributeError
      | Some k =>
          method a "validate" ;;;
          lift_out (gvalidate (k_fields k) a) ;;;
          with_depth (
            writeStructBegin P ;;;
            gwrite_fields
              (map (fun b => match b with
                             | (m, Some y) => (m, Some (fun t' => gwrite t' y))
                             | (m, None) => (m, None)
                             end) a) (k_fields k) ;;;
            writeFieldStop P ;;;
            writeStructEnd P)
      end
  | GEnum _ _, PMember _ z => writeI32 P z
  | GEnum _ _, PVal v =>
      if o_enum p then raise EAttributeError else write_base P TI32 v
  | GBase bt, PVal v => write_base P bt v
  | GBase bt, PMember _ z => write_base P bt (VInt z)
  | _, _ => raise ETypeError
  end.

End Write.

(** * The C encoder on such objects *)

Section Encode.
Context {X : Type}.
Variable I : cimpl X.

(** thrift_spec (t_py_generator.cc 776-812): the table keeps the declared
    name. *)
Fixpoint gspec_entries (pos : Z) (gs : list gfield) : list (option gfield) :=
  match gs with
  | [] => []
  | g :: r => repeat None (Z.to_nat (g_id g - pos)) ++ Some g :: gspec_entries (g_id g + 1) r
  end.
Definition gspec (gs : list gfield) : list (option gfield) :=
  match gs with
  | [] => []
  | g :: _ => if 0 <=? g_id g then gspec_entries 0 gs else []
  end.

(** The loop over the table (protocol.tcc 571-596): PyObject_GetAttr with the
    name in the table. *)
Fixpoint gencode_fields (ws : list (string * option (value * (gty -> M X unit))))
    (spec : list (option gfield)) : M X unit :=
  match spec with
  | [] => ret tt
  | None :: r => gencode_fields ws r
  | Some f :: r =>
      match assoc (g_name f) ws with
      | None => raise EAttributeError
      | Some None => gencode_fields ws r
      | Some (Some (v, w)) =>
          c_writeField I v (code (ety (g_ty f))) (g_id f) (w (g_ty f)) ;;;
          gencode_fields ws r
      end
  end.

(** encodeValue (protocol.tcc 375-629).  A member of an IntEnum is an int.
    c_writeField looks at its value argument for a bool only. *)
Fixpoint gencode (t : gty) (x : pv) {struct x} : M X unit :=
  match t, x with
  | GList _ et, PList _ l | GSet _ et, PSet _ l =>
      check_ssize_t_32 (Z.of_nat (length l)) ;;;
      c_writeListBegin I (code (ety et)) (sN 4 (Z.of_nat (length l))) ;;;
      mapM_ (gencode et) l
  | GMap _ kt vt, PMap _ l =>
      check_ssize_t_32 (Z.of_nat (length l)) ;;;
      c_writeMapBegin I (code (ety kt)) (code (ety vt)) (sN 4 (Z.of_nat (length l))) ;;;
      mapM_ (fun kv => match kv with
                       | (k, y) => gencode kt k ;;; gencode vt y
                       end) l
  | GStruct n, PObj m a =>
      if negb (n =? m)%nat then raise EAttributeError
      else
      match nth_error (p_classes p) n with
      | None => raise ETypeError
      | Some k =>
          recursion_guard (struct_scope I (
            gencode_fields
              (map (fun b => match b with
                             | (s, Some y) => (s, Some (base_of y, fun t' => gencode t' y))
                             | (s, None) => (s, None)
                             end) a) (gspec (k_fields k)) ;;;
            c_writeFieldStop I))
      end
  | (GBase _ | GEnum _ _), (PVal _ | PMember _ _) =>
      encode_base I (ety t) (base_of x)
  | _, _ => raise ETypeError
  end.

(** [write] with an accelerated protocol (t_py_generator.cc 1214-1223). *)
Definition gfast_write (n : nat) (a : attrs) : M X unit :=
  method a "write" ;;;
  match nth_error (p_classes p) n with
  | None => raise EAttributeError
  | Some k =>
      method a "validate" ;;;
      lift_out (gvalidate (k_fields k) a) ;;;
      gencode (GStruct n) (PObj n a)
  end.

End Encode.

(** * The C decoder on such objects *)

Section Decode.
Context {X : Type}.
Variable D : dimpl X.

(** decodeValue (protocol.tcc 723-935): an enum is an I32 to it. *)
Fixpoint gdecode (rs : nat -> M X pv) (fuel : nat) (t : gty) : M X pv :=
  match t with
  | GBase bt => v <- decode_base D bt ;; ret (PVal v)
  | GEnum _ _ => v <- decode_base D TI32 ;; ret (PVal v)
  | GList imm et =>
      '(etype, len) <- d_readListBegin D ;;
      (if (len >? 0) && negb (etype =? code (ety et)) then raise ETypeError
       else ret tt) ;;;
      l <- repeatM fuel len
             (fun acc => v <- gdecode rs fuel et ;; ret (acc ++ [v])) [] ;;
      ret (PList imm l)
  | GSet imm et =>
      '(etype, len) <- d_readListBegin D ;;
      (if (len >? 0) && negb (etype =? code (ety et)) then raise ETypeError
       else ret tt) ;;;
      l <- repeatM fuel len
             (fun acc => v <- gdecode rs fuel et ;; ret (acc ++ [v])) [] ;;
      if ghashable et || match l with [] => true | _ => false end
      then ret (PSet imm (fold_left pset_add l []))
      else raise ETypeError
  | GMap imm kt vt =>
      '(ktype, vtype, len) <- map_begin D ;;
      (if (len >? 0)
          && (negb (ktype =? code (ety kt)) || negb (vtype =? code (ety vt)))
       then raise ETypeError else ret tt) ;;;
      l <- repeatM fuel len
             (fun acc => k <- gdecode rs fuel kt ;;
                         v <- gdecode rs fuel vt ;;
                         if ghashable kt then ret (pdict_set acc k v)
                         else raise ETypeError) [] ;;
      ret (PMap imm l)
  | GStruct n => rs n
  end.

(** The loop of readStruct (protocol.tcc 990-1043). *)
Fixpoint gdecode_fields (fuel skfuel skdepth : nat) (rv : gty -> M X pv)
    (spec : list (option gfield)) (put : string -> pv -> attrs -> outcome attrs)
    (acc : attrs) : M X attrs :=
  match fuel with
  | O => diverge
  | S f =>
      '(type, tag) <- d_readFieldBegin D ;;
      if type =? T_STOP then ret acc
      else
        let again := cskip D skfuel skdepth type ;;;
                     gdecode_fields f skfuel skdepth rv spec put acc in
        if (tag <? 0) || (tag >=? Z.of_nat (length spec)) then again
        else match nth_error spec (Z.to_nat tag) with
             | Some (Some g) =>
                 if negb (code (ety (g_ty g)) =? type) then again
                 else
                   v <- rv (g_ty g) ;;
                   acc <- lift_out (put (g_name g) v acc) ;;
                   gdecode_fields f skfuel skdepth rv spec put acc
             | _ => again
             end
  end.

(** Whether the class defines __setattr__: readStruct takes it for an
    immutable one then, and passes what it read to the constructor
    (protocol.tcc 962-966, 1045-1052). *)
Definition own_setattr (k : gclass) : bool := k_imm k || (o_enum p && has_enum k).

(** readStruct (protocol.tcc 937-1053).  [top]: called on the caller's new
    object of a mutable class, whose attributes are set one by one (the
    generated [read], t_py_generator.cc 1109-1119). *)
Fixpoint gdecode_struct (top : bool) (dfuel fuel : nat) (n : nat) : M X pv :=
  match dfuel with
  | O => diverge
  | S d =>
      match nth_error (p_classes p) n with
      | None => raise ETypeError
      | Some k =>
          let body put acc :=
            gdecode_fields fuel fuel (S d)
              (gdecode (gdecode_struct false d fuel) fuel)
              (gspec (k_fields k)) put acc in
          if (if top then k_imm k else own_setattr k) then
            recursion_guard (read_scope D (
              kw <- body (fun s v kw => Ok (upd kw s (Some v))) [] ;;
              a <- lift_out (construct k kw) ;;
              ret (PObj n a)))
          else
            a0 <- lift_out (construct k []) ;;
            (if top then method a0 "read" else ret tt) ;;;
            recursion_guard (read_scope D (
              a <- body (fun s v a => setattr k a s (Some v)) a0 ;;
              ret (PObj n a)))
      end
  end.

End Decode.

(** * Equality and hashing *)

Section Eq.
(** [==] on attribute values, [is] on the objects they are, [hash]. *)
Variable veq : option pv -> option pv -> bool.
Variable same : option pv -> option pv -> bool.
Variable vhash : option pv -> outcome Z.
(** [hash] of a class and of a tuple of things with these hashes. *)
Variable chash : nat -> Z.
Variable thash : list Z -> Z.

(** Comparison of two dicts: same size, and each key of the one in the other
    with an identical or equal value. *)
Definition adict_eq (a b : attrs) : bool :=
  (length a =? length b)%nat
  && forallb (fun e => match assoc (fst e) b with
                       | Some w => same (snd e) w || veq (snd e) w
                       | None => false
                       end) a.

(** __eq__ over __slots__ (t_py_generator.cc 1063-1080): [!=] is taken to be
    the negation of [==]. *)
Fixpoint slots_eq (ns : list string) (a b : attrs) : outcome bool :=
  match ns with
  | [] => Ok true
  | n :: r =>
      match getattr a n, getattr b n with
      | Ok x, Ok y => if veq x y then slots_eq r a b else Ok false
      | _, _ => Raise EAttributeError
      end
  end.

(** [x == y] for two generated objects (t_py_generator.cc 1042-1080).  No
    class is a subclass of another one. *)
Definition obj_eq (n m : nat) (a b : attrs) : outcome bool :=
  if negb (n =? m)%nat then Ok false
  else if o_slots p then
    match nth_error (p_classes p) n with
    | Some k => slots_eq (map g_name (k_fields k)) a b
    | None => Raise EAttributeError
    end
  else Ok (adict_eq a b).

(** [hash(x)] (t_py_generator.cc 981-991): the attributes are collected into a
    tuple, then hashed.  A class with __eq__ and without __hash__ is
    unhashable. *)
Fixpoint collect (gs : list gfield) (a : attrs) : outcome (list (option pv)) :=
  match gs with
  | [] => Ok []
  | f :: r =>
      match getattr a (maybe_escape_identifier (g_name f)) with
      | Ok v => match collect r a with Ok l => Ok (v :: l) | o => o end
      | Raise e => Raise e
      | Diverge => Diverge
      end
  end.
Fixpoint hash_all (l : list (option pv)) : outcome (list Z) :=
  match l with
  | [] => Ok []
  | v :: r =>
      match vhash v with
      | Ok h => match hash_all r with Ok hs => Ok (h :: hs) | o => o end
      | Raise e => Raise e
      | Diverge => Diverge
      end
  end.
Definition obj_hash (n : nat) (a : attrs) : outcome Z :=
  match nth_error (p_classes p) n with
  | None => Raise ETypeError
  | Some k =>
      if k_imm k then
        match collect (k_fields k) a with
        | Ok l =>
            match hash_all l with
            | Ok hs => Ok (Z.lxor (chash n) (thash hs))
            | Raise e => Raise e
            | Diverge => Diverge
            end
        | Raise e => Raise e
        | Diverge => Diverge
        end
      else Raise ETypeError
  end.
End Eq.

End Prog.

(** * Over memory buffers *)

Definition run {X A B} (m : M X A) (s : st X) (k : A -> st X -> B) : outcome B :=
  match m s with
  | (Ok a, s') => Ok (k a s')
  | (Raise e, _) => Raise e
  | (Diverge, _) => Diverge
  end.

(** [x.write(protocol)] and then [getvalue()]; [cls.read(protocol)] or
    [cls().read(protocol)], with the bytes left over.  Without C extension. *)
Definition gserialize {X} (p : gprog) (P : proto X) (x0 : X) (n : nat) (x : pv)
  : outcome (list byte) :=
  run (gwrite p P (GStruct n) x) (mkst x0 [] [] 0) (fun _ s => out s).
Definition gdeserialize {X} (p : gprog) (P : proto X) (x0 : X) (n : nat)
    (buf : list byte) : outcome (pv * list byte) :=
  run (gread_struct p P DFUEL (S (length buf)) n) (mkst x0 buf [] 0)
      (fun x s => (x, inp s)).

(** The same with an accelerated protocol. *)
Definition gfast_serialize {X} (p : gprog) (I : cimpl X) (x0 : X) (n : nat)
    (a : attrs) : outcome (list byte) :=
  run (gfast_write p I n a) (mkst x0 [] [] 0) (fun _ s => out s).
Definition gfast_deserialize {X} (p : gprog) (D : dimpl X) (x0 : X) (n : nat)
    (buf : list byte) : outcome (pv * list byte) :=
  run (gdecode_struct p D true 66 (S (length buf)) n) (mkst x0 buf [] 0)
      (fun x s => (x, inp s)).
