(** Names in the modules generated for a program: what [ttypes.py],
    [constants.py] and the modules of services bind while they are imported, in
    order, and what a name used in them finds, then and later.

    Python 3, classes as generated by default ([dynamic] and [type_hints] off).
    What follows the first name of a dotted path is not modelled. *)
From Coq Require Import String Ascii.
From Coq Require Import ZArith List Bool.
From Verif Require Import Base GenClass.
Import ListNotations.
Open Scope string_scope.
Open Scope list_scope.

Notation esc := maybe_escape_identifier.

Inductive tkind := KEnum | KStruct | KExc.

(** What a name may be bound to. *)
Inductive obj :=
| OLib (n : string)              (* what the library or Python has under this name *)
| OPkg (n : string)              (* a package of generated modules *)
| OType (t : string) (k : tkind) (* the class of a type of this program, by its IDL name *)
| OOwn (n : string)              (* Iface, Client, Processor *)
| OHelper (n : string)           (* <fn>_args, <fn>_result *)
| OStructs.                      (* the list all_structs *)

Definition tkind_eqb (a b : tkind) : bool :=
  match a, b with
  | KEnum, KEnum | KStruct, KStruct | KExc, KExc => true
  | _, _ => false
  end.
Definition obj_eqb (a b : obj) : bool :=
  match a, b with
  | OLib m, OLib n | OPkg m, OPkg n | OOwn m, OOwn n | OHelper m, OHelper n => String.eqb m n
  | OType t k, OType u l => String.eqb t u && tkind_eqb k l
  | OStructs, OStructs => true
  | _, _ => false
  end.

(** Statements of a module.  [Use n o]: an expression has the name [n] where the
    generator means [o].  [Attr n o]: so, and takes an attribute of it. *)
Inductive stmt :=
| Bind (n : string) (o : obj)
| Use (n : string) (o : obj)
| Attr (n : string) (o : obj)
| Del (n : string).

(** The names of a module, the latest binding first. *)
Definition globals := list (string * obj).

Section Run.
(** The names in Python's builtins. *)
Variable builtins : list string.

(** A global name, as module code and methods find it. *)
Definition lookup (g : globals) (n : string) : option obj :=
  match assoc n g with
  | Some o => Some o
  | None => if mem n builtins then Some (OLib n) else None
  end.

(** A name found to be something else than was meant, and what. *)
Definition wrong := (string * obj * obj)%type.

(** One statement.  A class generated for a struct or an exception does not have
    the attributes that are taken of [TType], of [all_structs] and of packages;
    a class generated for an enum might, and its use is recorded instead. *)
Definition step (s : stmt) (g : globals) : outcome (globals * list wrong) :=
  match s with
  | Bind n o => Ok ((n, o) :: g, [])
  | Use n o =>
      match lookup g n with
      | None => Raise ENameError
      | Some o' => Ok (g, if obj_eqb o o' then [] else [(n, o, o')])
      end
  | Attr n o =>
      match lookup g n with
      | None => Raise ENameError
      | Some o' =>
          if obj_eqb o o' then Ok (g, [])
          else match o' with
               | OType _ KEnum => Ok (g, [(n, o, o')])
               | _ => Raise EAttributeError
               end
      end
  | Del n =>
      match assoc n g with
      | None => Raise ENameError
      | Some _ => Ok (filter (fun b => negb (String.eqb n (fst b))) g, [])
      end
  end.

Fixpoint run (ss : list stmt) (g : globals) : outcome (globals * list wrong) :=
  match ss with
  | [] => Ok (g, [])
  | s :: r =>
      match step s g with
      | Ok (g', w) =>
          match run r g' with
          | Ok (g'', w') => Ok (g'', w ++ w')
          | Raise e => Raise e
          | Diverge => Diverge
          end
      | Raise e => Raise e
      | Diverge => Diverge
      end
  end.

(** * A program *)

(** A reference to a type in generated code (type_name, t_py_generator.cc
    2873-2886): a type of the program by its name, a type of an included program
    through its package. *)
Inductive ref := ROwn (t : string) (k : tkind) | RIncl (root : string).
Definition use_ref (r : ref) : stmt :=
  match r with
  | ROwn t k => Use (esc t) (OType t k)
  | RIncl p => Attr p (OPkg p)
  end.

(** A struct, union or exception: whether its [thrift_spec] has entries, and the
    structs these refer to (type_to_spec_args 3004-3041; enums do not occur).
    Default values are in Defaults.v. *)
Record decl := mkdecl {
  d_name : string;
  d_exc : bool;
  d_fields : bool;
  d_refs : list ref }.
Definition d_kind (d : decl) : tkind := if d_exc d then KExc else KStruct.

(** The options [enum] and [utf8strings], the first names of the included
    programs' packages, the enums and the other types, in the order of the
    file. *)
Record prog := mkprog {
  p_enum : bool;
  p_utf8 : bool;
  p_roots : list string;
  p_enums : list string;
  p_objs : list decl }.

Definition lib (n : string) : stmt := Bind n (OLib n).

(** py_imports (490-513). *)
Definition py_imports (p : prog) : list string :=
  ["TType"; "TMessageType"; "TFrozenDict"; "TException"; "TApplicationException";
   "TProtocolException"; "fix_spec"; "UUID"]
  ++ (if p_enum p then ["IntEnum"] else [])
  ++ (if p_utf8 p then ["sys"] else []).

(** generate_enum (543-589), without members. *)
Definition enum_class (p : prog) (e : string) : list stmt :=
  [let b := if p_enum p then "IntEnum" else "object" in Use b (OLib b);
   Bind (esc e) (OType e KEnum)].
(** generate_py_struct_definition (819-842). *)
Definition struct_class (d : decl) : list stmt :=
  [let b := if d_exc d then "TException" else "object" in Use b (OLib b);
   Bind (esc (d_name d)) (OType (d_name d) (d_kind d))].
(** generate_py_thrift_spec (776-812); [me] is the class. *)
Definition thrift_spec (me : obj) (d : decl) : list stmt :=
  [Attr "all_structs" OStructs; Use (esc (d_name d)) me]
  ++ (if d_fields d then [Attr "TType" (OLib "TType")] else [])
  ++ map use_ref (d_refs d).

(** close_generator (517-522), and the end of generate_service (1331-1332). *)
Definition closing : list stmt :=
  [Use "fix_spec" (OLib "fix_spec"); Use "all_structs" OStructs; Del "all_structs"].

(** init_generator (442-454), generate_program (t_generator.cc 30-61). *)
Definition ttypes (p : prog) : list stmt :=
  map lib (py_imports p)
  ++ map (fun r => Bind r (OPkg r)) (p_roots p)
  ++ [lib "TTransport"; Bind "all_structs" OStructs]
  ++ flat_map (enum_class p) (p_enums p)
  ++ flat_map struct_class (p_objs p)
  ++ flat_map (fun d => thrift_spec (OType (d_name d) (d_kind d)) d) (p_objs p)
  ++ closing.

(** [from .ttypes import *]: there is no [__all__], so the names that do not
    begin with an underscore. *)
Definition public (n : string) : bool :=
  match n with
  | String c _ => negb (Ascii.eqb c "_")
  | EmptyString => true
  end.
Definition star (g : globals) : list stmt :=
  map (fun b => Bind (fst b) (snd b)) (rev (filter (fun b => public (fst b)) g)).

(** The header of constants.py (456-459); [g]: what importing ttypes.py left. *)
Definition constants_header (p : prog) (g : globals) : list stmt :=
  map lib (py_imports p) ++ star g.

(** * The module of a service *)

(** A function: its name, whether one-way, whether it has parameters and the
    structs these refer to, and so for its result with its exceptions. *)
Record sfn := mksfn {
  s_name : string;
  s_oneway : bool;
  s_params : bool;
  s_param_refs : list ref;
  s_result : bool;
  s_result_refs : list ref }.

Inductive mflavour := MSync | MTwisted | MTornado.

(** [m_zope]: the option [zope.interface] (implied by [twisted]); [m_extends]:
    the first name of the package of the service extended. *)
Record serv := mkserv {
  m_flavour : mflavour;
  m_zope : bool;
  m_extends : option string;
  m_fns : list sfn }.

(** generate_service_helpers, generate_py_function_helpers (1341-1377). *)
Definition helpers (f : sfn) : list decl :=
  [mkdecl (s_name f ++ "_args") false (s_params f) (s_param_refs f)]%string
  ++ (if s_oneway f then []
      else [mkdecl (s_name f ++ "_result") false (s_result f) (s_result_refs f)]%string).
Definition helper_class (d : decl) : list stmt :=
  [Use "object" (OLib "object"); Bind (esc (d_name d)) (OHelper (d_name d))]
  ++ thrift_spec (OHelper (d_name d)) d.

(** What is imported after the types (1307-1319). *)
Definition late_imports (s : serv) : list string :=
  ["TProcessor"; "TTransport"]
  ++ (if m_zope s then ["Interface"; "implementer"] else [])
  ++ (match m_flavour s with
      | MSync => []
      | MTwisted => ["defer"; "TTwisted"]
      | MTornado => ["gen"; "concurrent"]
      end).

Definition base_package (s : serv) : list stmt :=
  match m_extends s with Some r => [Attr r (OPkg r)] | None => [] end.
Definition implementer (s : serv) : list stmt :=
  if m_zope s then [Use "implementer" (OLib "implementer"); Use "Iface" (OOwn "Iface")] else [].
(** generate_service_interface (1384-1399). *)
Definition iface_class (s : serv) : list stmt :=
  (match m_extends s with
   | Some r => [Attr r (OPkg r)]
   | None => let b := if m_zope s then "Interface" else "object" in [Use b (OLib b)]
   end)
  ++ [Bind "Iface" (OOwn "Iface")].
(** generate_service_client (1429-1454). *)
Definition client_class (s : serv) : list stmt :=
  implementer s ++ base_package s
  ++ (if m_zope s
      then match m_extends s with Some _ => [] | None => [Use "object" (OLib "object")] end
      else [Use "Iface" (OOwn "Iface")])
  ++ [Bind "Client" (OOwn "Client")].
(** generate_service_server (1976-1991). *)
Definition processor_class (s : serv) : list stmt :=
  implementer s ++ base_package s
  ++ (if m_zope s then [] else [Use "Iface" (OOwn "Iface")])
  ++ [Use "TProcessor" (OLib "TProcessor"); Bind "Processor" (OOwn "Processor")].

(** generate_service (1292-1334). *)
Definition early_imports (p : prog) (s : serv) : list stmt :=
  map lib (py_imports p)
  ++ (match m_extends s with Some r => [Bind r (OPkg r)] | None => [] end)
  ++ [lib "logging"].
Definition service_module (p : prog) (s : serv) (g : globals) : list stmt :=
  early_imports p s
  ++ star g
  ++ map lib (late_imports s) ++ [Bind "all_structs" OStructs]
  ++ iface_class s ++ client_class s ++ processor_class s
  ++ flat_map helper_class (flat_map helpers (m_fns s))
  ++ closing.
End Run.
