(** A client and a server generated from different versions of a service: the
    client of t_py_generator.cc 1478-1757 over its schema [envC], the processor
    of 2018-2063 and 2272-2352 over the server's [envS].  What each does is in
    Rpc.v.  No proofs here. *)
From Coq Require Import String.
From Coq Require Import ZArith List Bool.
From Coq Require Import Init.Byte.
From Verif Require Import Base Bytes Proto Rpc.
Import ListNotations.
Open Scope Z_scope.

Section Versions.
Context {X H : Type}.
Variable P : proto X.
Variables envC envS : schema.
Variable handler : list Z -> list (option value) -> H -> hres * H.
(** The methods of the server's version. *)
Variable ms : list method.

(** A call of [m], a method of the client's version (t_py_generator.cc
    1563-1583), as in Rpc.v's [call]. *)
Definition vcall (m : method) (args : list (option value)) : SM (sys (X:=X) (H:=H)) cresult :=
  at_client (fun _ => send P envC m args) ;;;
  (fun y => (Ok tt, deliver_replies (serve_one P envS handler ms (deliver_requests y)))) ;;;
  if m_oneway m then ret (CReturn None)
  else at_client (fun F => recv P envC F m).

Fixpoint vcalls (l : list (method * list (option value))) (y : sys (X:=X) (H:=H))
  : list (outcome cresult) * sys (X:=X) (H:=H) :=
  match l with
  | [] => ([], y)
  | (m, args) :: r =>
      match vcall m args y with
      | (o, y') => match vcalls r y' with (os, y'') => (o :: os, y'') end
      end
  end.
End Versions.
