(** [deserialize(base, buf)] with an accelerated protocol: the branch of a
    generated [read] that calls the C decoder on the object
    (t_py_generator.cc 1108-1120), and decode_impl (module.cpp 83-116). *)
From Coq Require Import ZArith List Bool.
From Coq Require Import Init.Byte.
From Verif Require Import Base Bytes Utf8 Proto Dynamic Ext ExtRead Into.
Import ListNotations.
Open Scope Z_scope.

Section Fast.
Context {X : Type}.
Variable D : dimpl X.

(** RecursionGuard and ReadStructScope (protocol.tcc 190-220), as Ext.v's
    [recursion_guard] and ExtRead.v's [read_scope]: their ends run also when
    reading fails. *)
Definition guarded {A} (u : upd X A) : upd X A :=
  fun a s =>
    if depth s + 1 >? 64 then (Raise (EProtocol TP_DEPTH_LIMIT), a, s)
    else let '(o, a', s') := u a (mkst (px s) (inp s) (out s) (depth s + 1)) in
         (o, a', mkst (px s') (inp s') (out s') (depth s' - 1)).
Definition scoped {A} (u : upd X A) : upd X A :=
  thn (call (d_readStructBegin D))
      (fun a s => let '(o, a', s') := u a s in (o, a', d_readStructEnd D s')).

(** The loop of readStruct (protocol.tcc 990-1043): an attribute is set when its
    value is complete. *)
Fixpoint cinto_fields (fuel skfuel skdepth : nat) (rv : ty -> M X value)
    (spec : list (option (nat * fielddef))) : upd X (list (option value)) :=
  match fuel with
  | O => fun a s => (Diverge, a, s)
  | S f =>
      ask (d_readFieldBegin D) (fun '(type, tag) =>
        if type =? T_STOP then done
        else
          let next := cinto_fields f skfuel skdepth rv spec in
          let again := thn (call (cskip D skfuel skdepth type)) next in
          if (tag <? 0) || (tag >=? Z.of_nat (length spec)) then again
          else match nth_error spec (Z.to_nat tag) with
               | Some (Some (i, d)) =>
                   if negb (code (f_ty d) =? type) then again
                   else thn (attr i (assign Some (rv (f_ty d)))) next
               | _ => again
               end)
  end.

(** readStruct (protocol.tcc 937-1053) given an object. *)
Definition cinto_struct (env : schema) (dfuel fuel n : nat)
  : upd X (list (option value)) :=
  match dfuel with
  | O => fun a s => (Diverge, a, s)
  | S k =>
      match nth_error env n with
      | None => fun a s => (Raise ETypeError, a, s)
      | Some ds =>
          guarded (scoped
            (cinto_fields fuel fuel (S k)
               (decodeValue D (cread_struct D env k fuel) fuel) (thrift_spec ds)))
      end
  end.

(** As Into.v's [deserialize_into].  Of a class that cannot be changed the
    decoder makes a new object, which is dropped. *)
Definition fast_into (env : schema) (imm : nat -> bool) (x0 : X) (n : nat)
    (base : list (option value)) (buf : list byte)
  : outcome unit * list (option value) :=
  let s := mkst x0 buf [] 0 in
  let '(o, a, _) :=
    if imm n then call (cread_struct D env 66 (S (length buf)) n) base s
    else cinto_struct env 66 (S (length buf)) n base s in
  (o, a).
End Fast.
