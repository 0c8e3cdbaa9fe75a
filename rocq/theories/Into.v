(** Reading a message into an object that already exists: TSerialization.py's
    [deserialize(base, buf)], which calls [base.read(protocol)] and returns
    [base] (lines 34-38).

    A generated reader assigns attributes as it goes.  Here the object is
    carried along, so that what is left in it when reading fails is part of the
    result; Proto.v's readers describe only what a finished one holds.

    The accelerated branch of [read] (t_py_generator.cc 1108-1120) is in
    IntoFast.v.  Containers annotated [python.immutable] are not modelled. *)
From Coq Require Import ZArith List Bool.
From Coq Require Import Init.Byte.
From Verif Require Import Base Bytes Utf8 Proto.
Import ListNotations.
Open Scope Z_scope.

(** Code that works on something of type [A] in place and on a protocol: how it
    ends, what it leaves behind, and the protocol's state. *)
Definition upd (X A : Type) := A -> st X -> outcome unit * A * st X.

(** Nothing more to do. *)
Definition done {X A} : upd X A := fun a s => (Ok tt, a, s).

(** Two statements in sequence; an exception in the first skips the second. *)
Definition thn {X A} (u w : upd X A) : upd X A :=
  fun a s => match u a s with
             | (Ok _, a', s') => w a' s'
             | (o, a', s') => (o, a', s')
             end.

(** [x = m], a local variable, then [k x]. *)
Definition ask {X A B} (m : M X B) (k : B -> upd X A) : upd X A :=
  fun a s => match m s with
             | (Ok b, s') => k b a s'
             | (Raise e, s') => (Raise e, a, s')
             | (Diverge, s') => (Diverge, a, s')
             end.

(** A call whose result is not used. *)
Definition call {X A B} (m : M X B) : upd X A := ask m (fun _ => done).

(** [x = m] where [x] is what is worked on: it is assigned if [m] returns. *)
Definition assign {X B A} (g : B -> A) (m : M X B) : upd X A :=
  ask m (fun b _ s => (Ok tt, g b, s)).

(** [x = a], then work on that object in place. *)
Definition within {X A} (a : A) (g : A -> value) (u : upd X A)
  : upd X (option value) :=
  fun _ s => let '(o, a', s') := u a s in (o, Some (g a'), s').

(** Work on attribute [i] of an object. *)
Definition attr {X} (i : nat) (u : upd X (option value))
  : upd X (list (option value)) :=
  fun l s => let '(o, v, s') := u (nth i l None) s in (o, set_nth i v l, s').

(** [for _i in range(n): f]: a container is changed at the end of each turn.
    Fuel as in Base.v's [repeatM]. *)
Fixpoint loop {X A} (fuel : nat) (n : Z) (f : A -> M X A) : upd X A :=
  if n <=? 0 then done
  else match fuel with
       | O => fun a s => (Diverge, a, s)
       | S k => thn (fun a => assign (fun b => b) (f a) a) (loop k (n - 1) f)
       end.

(** increment_recursion_depth, then try/finally decrement (t_py_generator.cc
    1122-1124, 1200-1202). *)
Definition framed {X A} (u : upd X A) : upd X A :=
  thn (call increment_recursion_depth)
      (fun a s => let '(o, a', s') := u a s in
                  (o, a', decrement_recursion_depth s')).

Section Into.
Context {X : Type}.
Variable P : proto X.
Variable env : schema.

(** Classes whose objects cannot be changed: exceptions and structs annotated
    [python.immutable] (is_immutable, t_py_generator.cc 296-307).  Their [read]
    is a class method that returns a new object. *)
Variable imm : nat -> bool.

(** [self.f = …] (generate_deserialize_field, _struct, _container and the
    element methods, t_py_generator.cc 2361-2547).  An attribute holding a
    container is set to an empty one first, and one holding an object of a
    changeable class to a new one.  Elements are read into locals.  [rs] reads
    a new object, [ri] reads into one. *)
Definition into_attr (rs : nat -> M X value)
    (ri : nat -> upd X (list (option value))) (fuel : nat) (t : ty)
  : upd X (option value) :=
  match t with
  | TList et =>
      within [] VList
        (ask (readListBegin P) (fun '(_, size) =>
           thn (loop fuel size
                  (fun acc => v <- read_ty P rs fuel et ;; ret (acc ++ [v])))
               (call (readListEnd P))))
  | TSet et =>
      within [] VSet
        (ask (readSetBegin P) (fun '(_, size) =>
           thn (loop fuel size
                  (fun acc => v <- read_ty P rs fuel et ;;
                              if hashable et then ret (set_add acc v)
                              else raise ETypeError))
               (call (readSetEnd P))))
  | TMap kt vt =>
      within [] VMap
        (ask (readMapBegin P) (fun '(_, _, size) =>
           thn (loop fuel size
                  (fun acc => k <- read_ty P rs fuel kt ;;
                              v <- read_ty P rs fuel vt ;;
                              if hashable kt then ret (dict_set acc k v)
                              else raise ETypeError))
               (call (readMapEnd P))))
  | TStruct n =>
      match nth_error env n with
      | Some ds =>
          if imm n then assign Some (rs n)
          else within (fresh ds) (VStruct n) (ri n)
      | None => assign Some (rs n)
      end
  | _ => assign Some (read_base P t)
  end.

(** The loop over fields (t_py_generator.cc 1142-1187). *)
Fixpoint into_fields (fuel skfuel : nat) (rv : ty -> upd X (option value))
    (ds : list fielddef) : upd X (list (option value)) :=
  match fuel with
  | O => fun a s => (Diverge, a, s)
  | S f =>
      ask (readFieldBegin P) (fun '(ftype, fid) =>
        let next := thn (call (readFieldEnd P)) (into_fields f skfuel rv ds) in
        if ftype =? T_STOP then done
        else match find_field ds fid with
             | Some (i, d) =>
                 if ftype =? code (f_ty d) then thn (attr i (rv (f_ty d))) next
                 else thn (call (skip P skfuel SKIP_DEPTH ftype)) next
             | None => thn (call (skip P skfuel SKIP_DEPTH ftype)) next
             end)
  end.

(** [obj.read(iprot)] for an object of a changeable class [n]
    (t_py_generator.cc 1095-1205). *)
Fixpoint into_struct (dfuel fuel n : nat) : upd X (list (option value)) :=
  match dfuel with
  | O => fun a s => (Diverge, a, s)
  | S k =>
      match nth_error env n with
      | None => fun a s => (Raise EAttributeError, a, s)
      | Some ds =>
          framed
            (thn (call (readStructBegin P))
            (thn (into_fields fuel fuel
                    (into_attr (read_struct P env k fuel) (into_struct k fuel) fuel)
                    ds)
                 (call (readStructEnd P))))
      end
  end.

(** [deserialize(base, buf)], TSerialization.py 31-38, for [base] an object of
    class [n] with attributes [base]: how it ends and what [base] holds
    afterwards.  When it returns, it returns [base].  [x0] is the state of a
    new protocol object. *)
Definition deserialize_into (x0 : X) (n : nat) (base : list (option value))
    (buf : list byte) : outcome unit * list (option value) :=
  let s := mkst x0 buf [] 0 in
  let '(o, a, _) :=
    if imm n then call (read_struct P env DFUEL (S (length buf)) n) base s
    else into_struct DFUEL (S (length buf)) n base s in
  (o, a).

End Into.
