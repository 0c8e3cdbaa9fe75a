(** Names in the module generated for a service: which method, class or local
    variable a name finds when generated code runs, for services that extend
    others, in the three kinds of client and processor.

    Reading and writing are left to the models of calls (Rpc.v, Twisted.v,
    TornadoRpc.v): here they are primitives.  Python 3. *)
From Coq Require Import String.
From Coq Require Import ZArith List Bool.
From Verif Require Import Base GenClass.
Import ListNotations.
Open Scope string_scope.
Open Scope list_scope.

Inductive flavour := Sync | Twisted | Tornado.

(** A function: its name, its parameters, whether one-way or void, its declared
    exceptions as (name in the throws clause, class). *)
Record fn := mkfn {
  fn_name : string;
  fn_params : list string;
  fn_oneway : bool;
  fn_void : bool;
  fn_xs : list (string * nat) }.

(** A service and those it extends, the base first.  No function has the name
    of another in the chain (parse/t_service.h 40-72). *)
Definition chain := list (list fn).

Notation esc := maybe_escape_identifier.

(** * The client class (generate_service_client, t_py_generator.cc 1429-1757) *)

(** [s] is the place in the chain of the module that has the method. *)
Inductive meth :=
| MInit
| MStart
| MCall (s : nat) (f : fn)
| MSend (s : nat) (f : fn)
| MRecv (s : nat) (f : fn)
| MCb (s : nat) (f : fn)
| MEb (s : nat) (f : fn).

(** The [def]s for one function, in order.  [<fn>] and [send_<fn>] come from
    function_signature (2814-2829), [recv_<fn>] from 1666-1678: the name is
    escaped in all three.  [cb_send_<fn>] and [eb_send_<fn>] (1600-1622) are
    not. *)
Definition fn_defs (fl : flavour) (s : nat) (f : fn) : list (string * meth) :=
  [(esc (fn_name f), MCall s f)]
  ++ (match fl with
      | Twisted => [("cb_send_" ++ fn_name f, MCb s f); ("eb_send_" ++ fn_name f, MEb s f)]
      | _ => []
      end)%string
  ++ [("send_" ++ esc (fn_name f), MSend s f)]%string
  ++ (if fn_oneway f then [] else [("recv_" ++ esc (fn_name f), MRecv s f)]%string).

Definition class_defs (fl : flavour) (s : nat) (fs : list fn) : list (string * meth) :=
  [("__init__", MInit)]
  ++ (match fl, s with Tornado, O => [("_start_receiving", MStart)] | _, _ => [] end)
  ++ flat_map (fn_defs fl s) fs.

(** What a class statement leaves of its body: of two [def]s of the same name
    the later. *)
Definition last_def {A} (n : string) (l : list (string * A)) : option A := assoc n (rev l).

(** Attribute lookup on the class: [class Client(<base>.Client, Iface)]
    (1432-1456), so the class itself, then the base's, and so on.  Iface and its
    bases come last and have no names that the clients do not have.  [s] is the
    place of the base of the chain. *)
Fixpoint class_attr (fl : flavour) (s : nat) (ch : chain) (n : string) : option meth :=
  match ch with
  | [] => None
  | fs :: r =>
      match class_attr fl (S s) r n with
      | Some m => Some m
      | None => last_def n (class_defs fl s fs)
      end
  end.

(** What [__init__] assigns (1468-1505); found before the class. *)
Definition instance_attrs (fl : flavour) : list string :=
  match fl with
  | Sync => ["_iprot"; "_oprot"; "_seqid"]
  | Twisted => ["_transport"; "_oprot_factory"; "_seqid"; "_reqs"]
  | Tornado => ["_transport"; "_iprot_factory"; "_oprot_factory"; "_seqid"; "_reqs"]
  end.

(** * The classes of a module (generate_service_helpers, 1341-1377)

    Argument classes are named in the parser (thrifty.yy 762), result classes in
    1362; generate_py_struct_definition escapes the whole name, which ends in
    neither case like a keyword. *)
Inductive hcls := HArgs (f : fn) | HResult (f : fn) | HTypes.
Definition helper_defs (f : fn) : list (string * hcls) :=
  [(esc (fn_name f ++ "_args"), HArgs f)]%string
  ++ (if fn_oneway f then [] else [(esc (fn_name f ++ "_result"), HResult f)]%string).

Section Module.
(** The names that [from .ttypes import *] brings, and the functions of the
    module's own service. *)
Variable types : list string.

(** A class by its name, as a method finds it when it runs: the helpers come
    last in the module (1324-1328).  The rest of the module binds no name ending
    in _args or _result. *)
Definition global_class (fs : list fn) (n : string) : option hcls :=
  match last_def n (flat_map helper_defs fs) with
  | Some c => Some c
  | None => if mem n types then Some HTypes else None
  end.
End Module.

(** * Running client methods *)

Section Client.
Context {T V R : Type}.
Variable fl : flavour.
Variable ch : chain.
Variable types : list string.

(** What a local variable holds: what the caller passed, or an object of the
    generated code. *)
Inductive lv :=
| LArg (v : V)
| LSelf
| LArgs             (* the argument object *)
| LProt             (* the output protocol *)
| LSeqid            (* the sequence number of this call *)
| LFuture.

Definition locals := list (string * lv).

(** writeMessageBegin; write, writeMessageEnd and flush of an argument object of
    that class with those attributes; recv_<fn> from its first line, with the
    result class, or without one where its name is not bound; what else is
    called by accident. *)
Variable begin_message : string -> bool -> SM T unit.
Variable send_args : hcls -> list (string * lv) -> SM T unit.
Variable receive : option hcls -> fn -> list lv -> SM T R.
Variable other : meth -> list lv -> SM T R.
(** None; and what is left of a result where <fn> has no [return] (1578-1583):
    None in place of a value, what is raised stays. *)
Variable nothing : R.
Variable discard : R -> R.

Definition module_of (s : nat) : list fn := nth s ch [].

(** Parameters; a wrong number of arguments is a TypeError. *)
Definition params (f : fn) (vs : list lv) : option locals :=
  if (length vs =? length (fn_params f))%nat
  then Some (combine (map esc (fn_params f)) vs ++ [("self", LSelf)])
  else None.

(** Reading a local variable.  (A name that is not bound as a local does not
    occur in the bodies below.) *)
Definition local (env : locals) (n : string) : lv :=
  match assoc n env with Some v => v | None => LSelf end.

(** <fn> (1549-1585): the names assigned before send_<fn> is called. *)
Definition call_locals (f : fn) (env : locals) : locals :=
  match fl with
  | Sync => env
  | Twisted => ("seqid", LSeqid) :: env
  | Tornado => if fn_oneway f then env else ("future", LFuture) :: env
  end.

(** The names of the module that <fn> reads: a parameter of such a name hides
    it.  What is passed for a parameter is a value of an IDL type, without the
    attributes that are looked up, and not callable. *)
Definition hides (f : fn) (g : string) : bool := mem g (map esc (fn_params f)).
Definition call_hidden (f : fn) : bool :=
  match fl with
  | Sync => false
  | Twisted => hides f "defer"                            (* 1550-1551 *)
  | Tornado => negb (fn_oneway f) && hides f "concurrent" (* 1557 *)
  end.

(** send_<fn> (1625-1661). *)
Definition send_body (s : nat) (f : fn) (vs : list lv) : SM T R :=
  match params f vs with
  | None => raise ETypeError
  | Some env =>
      let env1 := match fl with Sync => env | _ => ("oprot", LProt) :: env end in
      if hides f "TMessageType" then raise EAttributeError else
      begin_message (fn_name f) (fn_oneway f) ;;;
      if hides f (esc (fn_name f) ++ "_args")%string then raise ETypeError else
      match global_class types (module_of s) (esc (fn_name f) ++ "_args")%string with
      | None => raise ENameError
      | Some c =>
          let env2 := ("args", LArgs) :: env1 in
          send_args c (map (fun p => (esc p, local env2 (esc p))) (fn_params f)) ;;;
          ret nothing
      end
  end.

(** recv_<fn> (1663-1757): without parameters, or (iprot, mtype, rseqid). *)
Definition recv_arity : nat := match fl with Sync => 0 | _ => 3 end.
Definition recv_body (s : nat) (f : fn) (vs : list lv) : SM T R :=
  if (length vs =? recv_arity)%nat
  then receive (global_class types (module_of s) (esc (fn_name f) ++ "_result")%string) f vs
  else raise ETypeError.

(** [self.n( *vs)]: an attribute of the object is not callable; a method is
    bound.  A method calls others by name.  In the Twisted and Tornado clients
    recv_<fn> is called when the reply arrives.  Raised here is also what Twisted's
    maybeDeferred and eb_send_<fn> put into the Deferred instead. *)
Fixpoint call_attr (fuel : nat) (n : string) (vs : list lv) : SM T R :=
  match fuel with
  | O => fun st => (Diverge, st)
  | S fuel' =>
      if mem n (instance_attrs fl) then raise ETypeError
      else
        match class_attr fl 0 ch n with
        | None => raise EAttributeError
        | Some (MCall s f) =>
            match params f vs with
            | None => raise ETypeError
            | Some env =>
                if call_hidden f then raise EAttributeError else
                let env1 := call_locals f env in
                call_attr fuel' ("send_" ++ fn_name f)%string
                          (map (fun p => local env1 (esc p)) (fn_params f)) ;;;
                match fl with
                | Sync => if fn_oneway f then ret nothing
                          else r <- call_attr fuel' ("recv_" ++ fn_name f)%string [] ;;
                               ret (if fn_void f then discard r else r)
                | _ => ret nothing
                end
            end
        | Some (MSend s f) => send_body s f vs
        | Some (MRecv s f) => recv_body s f vs
        | Some m => other m vs
        end
  end.
End Client.
Arguments lv V : clear implicits.

(** * The processor class (generate_service_server, 1971-2079) *)

(** [s]: where in the chain. *)
Inductive pmeth := PProcess (s : nat) (f : fn) | PAux.

(** Names defined by the class of one service: process_<fn> escaped (2092-2098),
    Twisted's auxiliary methods not (2136-2174). *)
Definition processor_defs (fl : flavour) (s : nat) (fs : list fn) : list (string * pmeth) :=
  [("__init__", PAux); ("on_message_begin", PAux); ("process", PAux)]
  ++ flat_map (fun f =>
       [("process_" ++ esc (fn_name f), PProcess s f)]%string
       ++ match fl with
          | Twisted =>
              if fn_oneway f then [("handle_exception_" ++ fn_name f, PAux)]%string
              else [("write_results_success_" ++ fn_name f, PAux);
                    ("write_results_exception_" ++ fn_name f, PAux)]%string
          | _ => []
          end) fs.

(** The processMap that [__init__] builds (1996-2017): that of the base, then the
    own functions; [Processor] is the class of the module, which defines all
    the names. *)
Fixpoint process_map (fl : flavour) (s : nat) (ch : chain) : list (string * pmeth) :=
  match ch with
  | [] => []
  | fs :: r =>
      flat_map (fun f => match last_def ("process_" ++ esc (fn_name f))%string (processor_defs fl s fs) with
                         | Some m => [(fn_name f, m)]
                         | None => []
                         end) fs
      ++ process_map fl (S s) r
  end.
Definition dispatch_to (fl : flavour) (ch : chain) (name : string) : option pmeth :=
  last_def name (process_map fl 0 ch).

(** * process_<fn> (2088-2352) *)

(** What the handler did. *)
Inductive hdone (V : Type) :=
| DReturn (v : V)
| DRaise (c : nat) (e : V)       (* an exception of class c *)
| DApp (e : V)                   (* TApplicationException *)
| DTransport                     (* TTransportException *)
| DOther.
Arguments DReturn {V}.
Arguments DRaise {V}.
Arguments DApp {V}.
Arguments DTransport {V}.
Arguments DOther {V}.

(** What the locals of process_<fn> hold.  The result object is its attributes
    that have been assigned. *)
Inductive pl (V : Type) :=
| QSelf | QSeqid | QIprot | QOprot | QArgs | QError
| QType (exc : bool)             (* TMessageType.REPLY or EXCEPTION *)
| QExn (e : V)
| QResult
| QInternal.                     (* the TApplicationException "Internal error" *)
Arguments QSelf {V}.
Arguments QSeqid {V}.
Arguments QIprot {V}.
Arguments QOprot {V}.
Arguments QArgs {V}.
Arguments QError {V}.
Arguments QType {V}.
Arguments QExn {V}.
Arguments QResult {V}.
Arguments QInternal {V}.

Section Process.
Context {V : Type}.

(** Locals, with the attributes of the result object: [success] and those of
    exceptions. *)
Record pframe := mkpf {
  pf_locals : list (string * pl V);
  pf_success : option V;
  pf_attrs : list (string * pl V) }.

Definition bindv (n : string) (v : pl V) (fr : pframe) : pframe :=
  mkpf ((n, v) :: pf_locals fr) (pf_success fr) (pf_attrs fr).
(** At the end of an [except ... as n] clause n is deleted. *)
Definition unbindv (n : string) (fr : pframe) : pframe :=
  mkpf (filter (fun x => negb (String.eqb n (fst x))) (pf_locals fr)) (pf_success fr) (pf_attrs fr).

(** The locals when the handler has been called: in Twisted those of
    write_results_success_<fn> (2149) and write_results_exception_<fn>
    (2165-2169). *)
Definition frame (fl : flavour) (raised : bool) : pframe :=
  mkpf (match fl with
        | Sync => [("result", QResult); ("args", QArgs); ("self", QSelf); ("seqid", QSeqid);
                   ("iprot", QIprot); ("oprot", QOprot)]
        | Tornado => [("msg_type", QType false); ("result", QResult); ("args", QArgs); ("self", QSelf);
                      ("seqid", QSeqid); ("iprot", QIprot); ("oprot", QOprot)]
        | Twisted => (if raised then [("msg_type", QType false)] else [])
                     ++ [("self", QSelf); ("error", QError); ("result", QResult); ("seqid", QSeqid);
                         ("oprot", QOprot)]
        end) None [].

(** [result.n = n], where result may be something else by now. *)
Definition assign_result (n : string) (fr : pframe) : pframe :=
  match assoc "result" (pf_locals fr), assoc n (pf_locals fr) with
  | Some QResult, Some v => mkpf (pf_locals fr) (pf_success fr) (pf_attrs fr ++ [(n, v)])
  | _, _ => fr
  end.

Definition internal (fr : pframe) : pframe := bindv "result" QInternal (bindv "msg_type" (QType true) fr).

(** The name at the front of what type_name (2873-2885) writes for a class. *)
Variable class_of : nat -> string.

Section Body.
Variable fl : flavour.
Variable f : fn.

(** The name of an exception is assigned in the function, so it is a local of
    all of it: read as a global before, it is unbound. *)
Definition hidden (g : string) : bool := mem g (map (fun x => esc (fst x)) (fn_xs f)).

Inductive step :=
| SFrame (fr : pframe)
| SAgain                        (* raised again *)
| SUnbound.                     (* UnboundLocalError *)
Definition reads (g : string) (k : step) : step := if hidden g then SUnbound else k.

(** The clauses for declared exceptions, tried in order. *)
Fixpoint declared (xs : list (string * nat)) (c : option nat) (hit : string -> step) (miss : step) : step :=
  match xs with
  | [] => miss
  | (n, c') :: r =>
      reads (class_of c')
        (if match c with Some c => Nat.eqb c c' | None => false end then hit n else declared r c hit miss)
  end.

(** The except clauses.  Declared exceptions derive from TException, not from
    TTransportException or TApplicationException.  (A handler that raises does
    so before result.success is assigned.) *)
Definition excepts (d : hdone V) : step :=
  let fr := frame fl true in
  let cls := match d with DRaise c _ => Some c | _ => None end in
  let hit x :=
    let n := esc x in
    let fr1 := match d with DRaise _ e => bindv n (QExn e) fr | _ => fr end in
    match fl with
    | Sync => reads "TMessageType" (SFrame (unbindv n (assign_result n (bindv "msg_type" (QType false) fr1))))
    | _ => SFrame (unbindv n (assign_result n fr1))
    end in
  let transport k := reads "TTransport" (match d with DTransport => SAgain | _ => k end) in
  let rest :=
    reads "TApplicationException"
      (match d with
       | DApp e =>
           reads "logging" (reads "TMessageType"
             (SFrame (unbindv "ex" (bindv "result" (QExn e) (bindv "msg_type" (QType true) (bindv "ex" (QExn e) fr))))))
       | _ => reads "Exception" (reads "logging" (reads "TMessageType" (SFrame (internal fr))))
       end) in
  match fl with
  | Sync => transport (declared (fn_xs f) cls hit rest)
  | _ => declared (fn_xs f) cls hit (transport rest)
  end.

(** From the call of the handler to the end of the try statement. *)
Definition handled (d : hdone V) : step :=
  let done v :=
    let fr := frame fl false in
    SFrame (bindv "msg_type" (QType false)
              (if fn_void f then fr else mkpf (pf_locals fr) (Some v) (pf_attrs fr))) in
  match fl with
  | Sync =>
      match d with
      | DReturn v => if hidden "TMessageType" then excepts DOther else done v
      | _ => excepts d
      end
  | Twisted =>
      match d with
      | DReturn v => done v
      | _ => reads "TMessageType" (excepts d)
      end
  | Tornado =>
      reads "TMessageType"
        (if hidden "gen" then excepts DOther
         else match d with DReturn v => done v | _ => excepts d end)
  end.

(** The reply: message type, and the object written with its attributes; sent
    with the sequence number on the output protocol (2338-2343, 2191-2197,
    2262-2268, and 2155-2159 where the type is a constant).  A name that is not
    bound, or bound to something else, is an error. *)
Inductive preply :=
| Reply (exc : bool) (what : pl V) (success : option V) (attrs : list (string * pl V))
| NoReply                       (* TTransportException goes on; or one-way *)
| Unbound.                      (* UnboundLocalError *)

Definition answer (d : hdone V) : preply :=
  match handled d with
  | SAgain => NoReply
  | SUnbound => Unbound
  | SFrame fr =>
      match assoc "oprot" (pf_locals fr), assoc "msg_type" (pf_locals fr),
            assoc "seqid" (pf_locals fr), assoc "result" (pf_locals fr) with
      | Some QOprot, Some (QType t), Some QSeqid, Some w => Reply t w (pf_success fr) (pf_attrs fr)
      | _, _, _, _ => Unbound
      end
  end.

(** process_<fn>, with the classes of its module that it uses; what a one-way
    function raises is dropped (2345-2348). *)
Inductive prun :=
| PRun (args : hcls) (result : option hcls) (r : preply)
| PNameError.
Definition process (types : list string) (fs : list fn) (d : hdone V) : prun :=
  let a := (esc (fn_name f) ++ "_args")%string in
  let r := (esc (fn_name f) ++ "_result")%string in
  let outer g := match fl with Twisted => false | _ => hidden g end in
  match global_class types fs a with
  | None => PNameError
  | Some ca =>
      if outer a then PNameError
      else if fn_oneway f then PRun ca None NoReply
      else match global_class types fs r with
           | None => PNameError
           | Some cr => if outer r then PNameError else PRun ca (Some cr) (answer d)
           end
  end.
End Body.
End Process.
Arguments pframe V : clear implicits.
Arguments step V : clear implicits.
Arguments preply V : clear implicits.
Arguments prun V : clear implicits.

(** * Compiling the module *)

Fixpoint distinct (l : list string) : bool :=
  match l with
  | [] => true
  | x :: r => negb (mem x r) && distinct r
  end.

(** The parameter lists that Python checks: of <fn> and send_<fn> (2814-2829),
    of the argument and result classes (896-905).  Two parameters of the same
    name are a SyntaxError, for the whole module. *)
Definition fn_compiles (f : fn) : bool :=
  distinct ("self" :: map esc (fn_params f))
  && (fn_oneway f
      || distinct ("self" :: (if fn_void f then [] else ["success"]) ++ map (fun x => esc (fst x)) (fn_xs f))).
Definition module_compiles (fs : list fn) : bool := forallb fn_compiles fs.
