(** The default values of fields as objects: who holds which list, set, dict or
    struct.  The value models (Proto.v, GenClass.v) copy a default whenever an
    object is made; Python does not.

    Only what bears on defaults is here: generated types.py as it is loaded,
    [__init__], and what [read] makes of absent fields.  Conversions of enum
    values ([enum] option) concern no objects that can be changed and are left
    out. *)
From Coq Require Import String.
From Coq Require Import ZArith List Bool.
From Verif Require Import Base Proto GenClass Const.
Import ListNotations.
Open Scope Z_scope.

(** * Objects *)

(** What a name, an attribute or an element refers to: None, a value that
    cannot be changed, or an object in the heap. *)
Inductive hv :=
| HNone
| HVal (v : value)
| HMem (e : nat) (z : Z)
| HRef (l : nat).

(** As in GenClass.v, [true] is the frozen kind: tuple, frozenset, TFrozenDict. *)
Inductive hobj :=
| HList (imm : bool) (l : list hv)
| HSet (imm : bool) (l : list hv)
| HDict (imm : bool) (l : list (hv * hv))
| HObj (n : nat) (a : list (string * hv)).

(** Objects are never freed. *)
Definition heap := list hobj.
Definition alloc (o : hobj) (h : heap) : hv * heap := (HRef (length h), h ++ [o]).

Inductive hres (A : Type) :=
| HOk (a : A) (h : heap)
| HNameError
| HRaise (e : exn)
| HDiverge.
Arguments HOk {A} a h.
Arguments HNameError {A}.
Arguments HRaise {A} e.
Arguments HDiverge {A}.

Definition hbind {A B} (r : hres A) (f : A -> heap -> hres B) : hres B :=
  match r with
  | HOk a h => f a h
  | HNameError => HNameError
  | HRaise e => HRaise e
  | HDiverge => HDiverge
  end.

(** [x is y] for objects.  Where unchangeable values are compared the outcome
    makes no difference: an equal one takes its place (see [init_field]). *)
Definition same (x y : hv) : bool :=
  match x, y with HRef a, HRef b => (a =? b)%nat | _, _ => false end.

(** Elements and keys, where they are of base or enum type; others are taken to
    be unhashable, as [hashes] in Const.v. *)
Definition atom_of (x : hv) : option pv :=
  match x with
  | HVal v => Some (PVal v)
  | HMem e z => Some (PMember e z)
  | _ => None
  end.
Definition hashes_h (x : hv) : bool := match atom_of x with Some _ => true | None => false end.
Definition atom_eqb (x y : hv) : bool :=
  match atom_of x, atom_of y with Some a, Some b => pkey_eqb a b | _, _ => false end.
Definition hset_add (acc : list hv) (x : hv) : list hv :=
  if existsb (atom_eqb x) acc then acc else acc ++ [x].
Fixpoint hdict_set (d : list (hv * hv)) (k x : hv) : list (hv * hv) :=
  match d with
  | [] => [(k, x)]
  | (k', x') :: r => if atom_eqb k k' then (k', x) :: r else (k', x') :: hdict_set r k x
  end.
Definition of_atom (x : pv) : hv :=
  match x with PVal v => HVal v | PMember e z => HMem e z | _ => HNone end.

(** * Classes *)

(** A field: name, id, whether the constructor compares its default
    (t_py_generator.cc 909-910: neither base type nor enum by that name), the
    text of the default. *)
Record dfield := mkdfield {
  d_name : string;
  d_id : Z;
  d_cont : bool;
  d_def : option pexpr }.
Definition dclass := list dfield.

(** A class as it exists while types.py runs: the default values of the
    parameters of [__init__], evaluated with the [def] (declare_argument,
    2780-2792); thrift_spec, None at first (849) and assigned after all classes
    (generate_py_thrift_spec, 776-812): here the ids with their defaults.  The
    tuple is padded, so that the index is the id. *)
Record cls := mkcls { c_args : list hv; c_spec : option (list (Z * hv)) }.

Fixpoint zassoc (k : Z) (l : list (Z * hv)) : option hv :=
  match l with
  | [] => None
  | (j, v) :: r => if k =? j then Some v else zassoc k r
  end.

Section Run.
Variable p : gprog.        (* its enums *)
Variable ds : list dclass.
Variable cs : list cls.    (* the classes defined so far *)

Section New.
Variable ev : pexpr -> heap -> hres hv.

(** One field in [__init__] (907-937): the argument, or the parameter's default;
    [if x is self.thrift_spec[k][4]: x = <default>] (910-917).  Attributes are
    kept under the names of the IDL; names that are words of Python are C68's
    matter. *)
Definition init_field (f : dfield) (arg : hv) (c : cls) (kw : list (string * hv)) (h : heap) : hres hv :=
  let v := match assoc (maybe_escape_identifier (d_name f)) kw with
           | Some v => v
           | None => arg
           end in
  match d_cont f, d_def f with
  | true, Some x =>
      match c_spec c with
      | None => HRaise ETypeError                    (* 'NoneType' object is not subscriptable *)
      | Some sp =>
          match zassoc (d_id f) sp with
          | None => HRaise EIndexError
          | Some w => if same v w then ev x h else HOk v h
          end
      end
  | _, _ => HOk v h
  end.

Fixpoint init_all (fs : list dfield) (args : list hv) (c : cls) (kw : list (string * hv)) (h : heap)
  : hres (list (string * hv)) :=
  match fs, args with
  | f :: fs', a :: args' =>
      hbind (init_field f a c kw h) (fun v h1 =>
      hbind (init_all fs' args' c kw h1) (fun r h2 => HOk ((d_name f, v) :: r) h2))
  | _, _ => HOk [] h
  end.

(** [cls( ** kw)].  Objects are allocated when they are complete; nothing can
    see them before. *)
Definition new (n : nat) (kw : list (string * hv)) (h : heap) : hres hv :=
  match nth_error ds n, nth_error cs n with
  | Some d, Some c =>
      if forallb (fun a => mem (fst a) (map (fun f => maybe_escape_identifier (d_name f)) d)) kw
      then hbind (init_all d (c_args c) c kw h) (fun a h1 =>
             let (v, h2) := alloc (HObj n a) h1 in HOk v h2)
      else HRaise ETypeError
  | _, _ => HNameError
  end.
End New.

Definition hmap {A B} (f : A -> heap -> hres B) : list A -> heap -> hres (list B) :=
  fix go l h :=
    match l with
    | [] => HOk [] h
    | x :: r => hbind (f x h) (fun y h1 => hbind (go r h1) (fun t h2 => HOk (y :: t) h2))
    end.

(** The text of a default (render_const_value, 615-727), evaluated: every
    literal is a new object (Python may use one object for equal tuples of
    constants; nobody can change these).  [fuel] bounds the constructors that evaluate
    defaults of their own. *)
Fixpoint heval (fuel : nat) : pexpr -> heap -> hres hv :=
  match fuel with
  | O => fun _ _ => HDiverge
  | S fuel' =>
      fix go x h :=
        match x with
        | XList i l => hbind (hmap go l h) (fun vs h1 =>
                         let (v, h2) := alloc (HList i vs) h1 in HOk v h2)
        | XSet i l => hbind (hmap go l h) (fun vs h1 =>
                        if forallb hashes_h vs
                        then let (v, h2) := alloc (HSet i (fold_left hset_add vs [])) h1 in HOk v h2
                        else HRaise ETypeError)
        | XDict i l =>
            hbind (hmap (fun kx h => match kx with
                                     | (k, x) => hbind (go k h) (fun a h1 =>
                                                 hbind (go x h1) (fun b h2 => HOk (a, b) h2))
                                     end) l h)
              (fun vs h1 =>
                 if forallb (fun ab => hashes_h (fst ab)) vs
                 then let (v, h2) := alloc (HDict i (fold_left (fun d ab => hdict_set d (fst ab) (snd ab)) vs [])) h1
                      in HOk v h2
                 else HRaise ETypeError)
        | XNew n l =>
            hbind (hmap (fun kx h => match kx with
                                     | (k, x) =>
                                         match str_literal k with
                                         | None => HNameError
                                         | Some s => hbind (go x h) (fun b h1 => HOk (to_name s, b) h1)
                                         end
                                     end) l h)
              (fun kw h1 => new (heval fuel') n kw h1)
        | _ =>
            match eval p x with
            | POk y => HOk (of_atom y) h
            | PNameError => HNameError
            | PRaise e => HRaise e
            end
        end
  end.
End Run.

(** * Loading types.py (t_generator.cc 48-61) *)

Section Load.
Variable p : gprog.
Variable ds : list dclass.
Variable fuel : nat.

Definition default_arg (cs : list cls) (f : dfield) (h : heap) : hres hv :=
  match d_def f with
  | None => HOk HNone h
  | Some x => heval p ds cs fuel x h
  end.

(** First the classes, in the order of the IDL ... *)
Fixpoint define (todo : list dclass) (cs : list cls) (h : heap) : hres (list cls) :=
  match todo with
  | [] => HOk cs h
  | d :: r => hbind (hmap (default_arg cs) d h) (fun args h1 =>
              define r (cs ++ [mkcls args None]) h1)
  end.

(** ... then their thrift_spec; fields by id, here in the order of the IDL.
    With a negative id it is [()]. *)
Definition negative (d : dclass) : bool := existsb (fun f => d_id f <? 0) d.
Definition spec_of (cs : list cls) (d : dclass) (h : heap) : hres (list (Z * hv)) :=
  if negative d then HOk [] h
  else hmap (fun f h => hbind (default_arg cs f h) (fun v h1 => HOk (d_id f, v) h1)) d h.
Fixpoint set_spec (n : nat) (sp : list (Z * hv)) (cs : list cls) : list cls :=
  match n, cs with
  | _, [] => []
  | O, c :: r => mkcls (c_args c) (Some sp) :: r
  | S n', c :: r => c :: set_spec n' sp r
  end.
Fixpoint assign (todo : list dclass) (n : nat) (cs : list cls) (h : heap) : hres (list cls) :=
  match todo with
  | [] => HOk cs h
  | d :: r => hbind (spec_of cs d h) (fun sp h1 => assign r (S n) (set_spec n sp cs) h1)
  end.

Definition load : hres (list cls) :=
  hbind (define ds [] []) (fun cs h => assign ds O cs h).

End Load.

(** * Reading absent fields *)

Section Read.
Variable p : gprog.
Variable ds : list dclass.
Variable cs : list cls.
Variable fuel : nat.

Fixpoint hupd (l : list (string * hv)) (n : string) (v : hv) : list (string * hv) :=
  match l with
  | [] => [(n, v)]
  | (m, w) :: r => if String.eqb n m then (m, v) :: r else (m, w) :: hupd r n v
  end.
Fixpoint set_at (h : heap) (l : nat) (o : hobj) : heap :=
  match h, l with
  | [], _ => []
  | _ :: r, O => o :: r
  | x :: r, S l' => x :: set_at r l' o
  end.

(** [obj = cls(); obj.read(iprot)] of a mutable class: [got] are the fields that
    came, with the objects made for them. *)
Definition read_mutable (n : nat) (got : list (string * hv)) (h : heap) : hres hv :=
  hbind (new ds cs (heval p ds cs fuel) n [] h) (fun v h1 =>
    match v with
    | HRef l =>
        match nth_error h1 l with
        | Some (HObj m a) =>
            HOk v (set_at h1 l (HObj m (fold_left (fun a nv => hupd a (fst nv) (snd nv)) got a)))
        | _ => HOk v h1
        end
    | _ => HOk v h1
    end).

(** [cls.read(iprot)] of an immutable class (1127-1138, 1189-1195): local
    variables with the defaults, evaluated here, replaced by what comes and
    handed to the constructor. *)
Definition read_immutable (n : nat) (got : list (string * hv)) (h : heap) : hres hv :=
  match nth_error ds n with
  | None => HNameError
  | Some d =>
      hbind (hmap (fun f h => hbind (default_arg p ds fuel cs f h) (fun v h1 =>
                    HOk (maybe_escape_identifier (d_name f),
                         match assoc (d_name f) got with Some w => w | None => v end) h1)) d h)
        (fun kw h1 => new ds cs (heval p ds cs fuel) n kw h1)
  end.

(** The C decoder (protocol.tcc 938-1053) hands an immutable class only what
    came (965-975, 1041, 1052). *)
Definition fast_immutable (n : nat) (got : list (string * hv)) (h : heap) : hres hv :=
  new ds cs (heval p ds cs fuel) n got h.

End Read.

(** [x.append(v)] of a list. *)
Definition append (l : nat) (v : hv) (h : heap) : option heap :=
  match nth_error h l with
  | Some (HList false vs) => Some (set_at h l (HList false (vs ++ [v])))
  | _ => None
  end.

(** [x.a] *)
Definition attr (l : nat) (n : string) (h : heap) : option hv :=
  match nth_error h l with Some (HObj _ a) => assoc n a | _ => None end.
