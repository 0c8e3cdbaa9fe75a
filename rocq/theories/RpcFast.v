(** Generated clients and processors with accelerated protocols
    (TBinaryProtocolAccelerated, TBinaryProtocol.py 262-294, and
    TCompactProtocolAccelerated, TCompactProtocol.py 461-487).

    Headers and ends of messages, skipping the arguments of unknown methods and
    TApplicationException (Thrift.py 139-180) go through the Python methods the
    accelerated classes inherit; the structs of the service go through the C
    code, which knows nothing of the Python object's state.  Either end, and
    either direction at the server, may be accelerated or not.

    The transports are those of Rpc.v, which deliver what was flushed; the
    decoder refilling its buffer from a transport is in ExtTransport.v. *)
From Coq Require Import String.
From Coq Require Import ZArith List Bool.
From Coq Require Import Init.Byte.
From Verif Require Import Base Bytes Utf8 Proto Binary Compact Dynamic Ext ExtRead Rpc.
Import ListNotations.
Open Scope Z_scope.
Open Scope list_scope.

(** How the generated [write] and [read] of a class write and read an object
    (t_py_generator.cc 1095-1120, 1209-1223).  [k_read env F n]: [F] is fuel. *)
Record codec (X : Type) := mkcodec {
  k_write : schema -> nat -> value -> M X unit;
  k_read : schema -> nat -> nat -> M X value }.
Arguments mkcodec {X}.
Arguments k_write {X}.
Arguments k_read {X}.

(** With a protocol that has no [_fast_encode] and [_fast_decode]. *)
Definition plain {X} (P : proto X) : codec X :=
  mkcodec (write_struct P) (fun env F n => read_struct P env DFUEL F n).

(** With one that has.  [trans.write(_fast_encode(...))]: the encoder is run to
    its end before anything is written.  [_fast_decode] reads from the transport
    of the protocol object and leaves its other attributes alone.  [y0] and [z0]
    are the states of a new encoder and decoder. *)
Definition fast {X Y W} (I : cimpl Y) (y0 : Y) (D : dimpl W) (z0 : W) : codec X :=
  mkcodec
    (fun env n v s =>
       match fast_serialize I y0 env n v with
       | Ok b => (Ok tt, mkst (px s) (inp s) (out s ++ b) (depth s))
       | Raise e => (Raise e, s)
       | Diverge => (Diverge, s)
       end)
    (fun env _ n s =>
       match cread_struct D env 66 (S (length (inp s))) n (mkst z0 (inp s) [] 0) with
       | (r, s') => (r, mkst (px s) (inp s') (out s) (depth s))
       end).

(** The two protocols: [None] is the class without acceleration, [Some big] the
    accelerated one on a machine with that byte order.  The decoder gets the
    limits of the protocol object (module.cpp 89-92). *)
Definition binary_codec (cf : bconf) (a : option bool) : codec unit :=
  match a with
  | None => plain (binary cf)
  | Some big =>
      fast (cbinary big) tt
        (dbinary big (string_length_limit cf) (container_length_limit cf)) tt
  end.
Definition compact_codec (cf : cconf) (a : option bool) : codec cst :=
  match a with
  | None => plain (compact cf)
  | Some big =>
      fast (ccompact big) []
        (dcompact big (c_string_length_limit cf) (c_container_length_limit cf)) crd_init
  end.

Section Server.
Context {X H : Type}.
Variable P : proto X.
Variable env : schema.
(** The codecs of the input and the output protocol. *)
Variables Ki Ko : codec X.
Variable handler : list Z -> list (option value) -> H -> hres * H.

(** As Rpc.v's [reply]. *)
Definition areply (K : codec X) (name : list Z) (mtype seqid : Z) (e : schema) (n : nat)
    (v : value) : SM (sstate X H) unit :=
  on_out (writeMessageBegin P name mtype seqid) ;;;
  on_out (k_write K e n v) ;;;
  on_out (writeMessageEnd P) ;;;
  flush_out.

(** As Rpc.v's [process_function] (t_py_generator.cc 2088-2109, 2272-2352). *)
Definition aprocess_function (F : nat) (m : method) (seqid : Z) : SM (sstate X H) unit :=
  args <- on_in (k_read Ki env F (m_args m)) ;;
  on_in (readMessageEnd P) ;;;
  r <- call_handler handler (m_name m) (attrs args) ;;
  match r with
  | HTransport t => raise (ETransport t)
  | _ =>
      if m_oneway m then ret tt
      else match reply_for env m r with
           | Some (mtype, e, n, v) =>
               areply (if mtype =? EXCEPTION then plain P else Ko)
                 (m_name m) mtype seqid e n v
           | None => ret tt
           end
  end.

(** As Rpc.v's [dispatch] and [process] (2018-2063). *)
Definition adispatch (F : nat) (ms : list method) (hdr : list Z * Z * Z)
  : SM (sstate X H) unit :=
  let '(name, _, seqid) := hdr in
  match lookup name ms with
  | None =>
      on_in (skip P F SKIP_DEPTH T_STRUCT) ;;;
      on_in (readMessageEnd P) ;;;
      areply (plain P) name EXCEPTION seqid app_env O
        (app_exn TA_UNKNOWN_METHOD (Some (lit "Unknown function " ++ name)))
  | Some m => aprocess_function F m seqid
  end.
Definition aprocess (F : nat) (ms : list method) : SM (sstate X H) unit :=
  hdr <- on_in (readMessageBegin P) ;;
  adispatch F ms hdr.
End Server.

Section Client.
Context {X : Type}.
Variable P : proto X.
Variable env : schema.
Variable K : codec X.

(** As Rpc.v's [send] (t_py_generator.cc 1631-1664). *)
Definition asend (m : method) (args : list (option value)) : SM (cstate_ X) unit :=
  on_cl (writeMessageBegin P (m_name m) (if m_oneway m then ONEWAY else CALL) 0) ;;;
  on_cl (k_write K env (m_args m) (VStruct (m_args m) args)) ;;;
  on_cl (writeMessageEnd P) ;;;
  cl_flush.

(** As Rpc.v's [recv] (1666-1757). *)
Definition arecv (F : nat) (m : method) : SM (cstate_ X) cresult :=
  '(_, mtype, _) <- on_cl (readMessageBegin P) ;;
  if mtype =? EXCEPTION then
    x <- on_cl (read_struct P app_env DFUEL F O) ;;
    on_cl (readMessageEnd P) ;;;
    ret (match attrs x with
         | [msg; type] => CApp type msg
         | _ => CApp None None
         end)
  else
    r <- on_cl (k_read K env F (m_result m)) ;;
    on_cl (readMessageEnd P) ;;;
    ret (result_of m r).
End Client.

Section System.
Context {X H : Type}.
Variable P : proto X.
Variable env : schema.
Variables Kc Ki Ko : codec X.
Variable handler : list Z -> list (option value) -> H -> hres * H.
Variable ms : list method.

(** As Rpc.v's [serve_one], [call] and [calls]. *)
Definition aserve_one (y : sys (X := X) (H := H)) : sys :=
  let '(c, s) := y in
  (c, snd (aprocess P env Ki Ko handler (length (inp (s_in s))) ms s)).

Definition acall (m : method) (args : list (option value))
  : SM (sys (X := X) (H := H)) cresult :=
  at_client (fun _ => asend P env Kc m args) ;;;
  (fun y => (Ok tt, deliver_replies (aserve_one (deliver_requests y)))) ;;;
  if m_oneway m then ret (CReturn None)
  else at_client (fun F => arecv P env Kc F m).

Fixpoint acalls (l : list (method * list (option value))) (y : sys (X := X) (H := H))
  : list (outcome cresult) * sys :=
  match l with
  | [] => ([], y)
  | (m, args) :: r =>
      match acall m args y with
      | (o, y') => match acalls r y' with (os, y'') => (o :: os, y'') end
      end
  end.
End System.
