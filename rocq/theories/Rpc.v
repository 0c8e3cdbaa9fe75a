(** Generated clients and processors, TApplicationException, and multiplexed
    services.  No proofs here. *)
From Coq Require Import String Ascii.
From Coq Require Import ZArith List Bool.
From Coq Require Import Init.Byte.
From Verif Require Import Base Bytes Utf8 Proto Compact.
Import ListNotations.
Open Scope Z_scope.
Open Scope list_scope.

(** Code points of an ASCII literal. *)
Definition lit (s : string) : list Z :=
  map (fun a => Z.of_N (N_of_ascii a)) (list_ascii_of_string s).

Definition name_eqb (a b : list Z) : bool :=
  if list_eq_dec Z.eq_dec a b then true else false.

(** * TApplicationException (lib/py/src/Thrift.py 94-179)

    [read] (139-162) and [write] (164-179) have the shape of generated code
    for a struct with fields 1: string message, 2: i32 type = 0, without
    validation: they are modelled as class 0 of a schema of their own. *)
Definition app_env : schema :=
  [[mkfield 1 TString false None; mkfield 2 TI32 false (Some (VInt TA_UNKNOWN))]].

(** [TApplicationException(type, message)] *)
Definition app_exn (type : Z) (msg : option (list Z)) : value :=
  VStruct 0 [option_map VStr msg; Some (VInt type)].

(** * Services *)

(** One method of a service, with the classes the generator makes for it:
    [m_args] is the [..._args] class, [m_result] the [..._result] class
    (generate_py_function_helpers, t_py_generator.cc 1360-1378), [m_ret] the
    return type ([None] for void), [m_xs] the declared exceptions (field id,
    class), in order. *)
Record method := mkmethod {
  m_name : list Z;
  m_oneway : bool;
  m_args : nat;
  m_result : nat;
  m_ret : option ty;
  m_xs : list (Z * nat) }.

Definition xfield (x : Z * nat) : fielddef :=
  mkfield (fst x) (TStruct (snd x)) false None.

(** Fields of the result class: [success] with id 0 unless void, then the
    exceptions (t_py_generator.cc 1364-1376). *)
Definition result_fields (m : method) : list fielddef :=
  match m_ret m with
  | Some t => [mkfield 0 t false None]
  | None => []
  end ++ map xfield (m_xs m).

(** What a handler does: return a value ([None] is Python's None), raise an
    exception object of a schema class, raise TApplicationException, raise
    TTransportException, or raise some other Exception.  (BaseExceptions such
    as KeyboardInterrupt are not modelled.) *)
Inductive hres :=
| HReturn (v : option value)
| HRaise (v : value)
| HApp (type : Z) (msg : option (list Z))
| HTransport (type : Z)
| HOther.

(** Two protocol objects, the messages flushed to the output transport so far,
    and the handler's own state. *)
Record sstate (X H : Type) := mkss {
  s_in : st X;
  s_out : st X;
  s_sent : list (list byte);
  s_h : H }.
Arguments mkss {X H}.
Arguments s_in {X H}.
Arguments s_out {X H}.
Arguments s_sent {X H}.
Arguments s_h {X H}.

Section Processor.
Context {X H : Type}.
Variable P : proto X.
Variable env : schema.

Definition on_in {A} (m : M X A) : SM (sstate X H) A :=
  fun s => match m (s_in s) with
           | (r, i) => (r, mkss i (s_out s) (s_sent s) (s_h s))
           end.
Definition on_out {A} (m : M X A) : SM (sstate X H) A :=
  fun s => match m (s_out s) with
           | (r, o) => (r, mkss (s_in s) o (s_sent s) (s_h s))
           end.

(** [oprot.trans.flush()] on a transport that buffers writes: what has been
    written so far leaves as one unit (TTransport.py 176-181, 295-306; see
    Transport.v). *)
Definition flush_out : SM (sstate X H) unit :=
  fun s =>
    let o := s_out s in
    (Ok tt, mkss (s_in s) (mkst (px o) (inp o) [] (depth o))
                 (s_sent s ++ [out o]) (s_h s)).

(** The handler object: method name, arguments, its state. *)
Variable handler : list Z -> list (option value) -> H -> hres * H.

Definition call_handler (name : list Z) (args : list (option value))
  : SM (sstate X H) hres :=
  fun s => match handler name args (s_h s) with
           | (r, h) => (Ok r, mkss (s_in s) (s_out s) (s_sent s) h)
           end.

(** writeMessageBegin; x.write; writeMessageEnd; flush
    (t_py_generator.cc 2030-2039, 2338-2343). *)
Definition reply (name : list Z) (mtype seqid : Z) (e : schema) (n : nat)
    (v : value) : SM (sstate X H) unit :=
  on_out (writeMessageBegin P name mtype seqid) ;;;
  on_out (write_struct P e n v) ;;;
  on_out (writeMessageEnd P) ;;;
  flush_out.

(** [except Cls1 as e1: result.e1 = e1 / except Cls2 ...]: attributes of the
    exception part of the result for an exception of class [c]; [None] if no
    clause matches. *)
Fixpoint catch (xs : list (Z * nat)) (c : nat) (v : value)
  : option (list (option value)) :=
  match xs with
  | [] => None
  | (_, c') :: r =>
      if Nat.eqb c c' then Some (Some v :: map (fun _ => None) r)
      else option_map (cons None) (catch r c v)
  end.

Definition no_xs (m : method) : list (option value) :=
  map (fun _ => None) (m_xs m).

(** Attributes of [result] after [result.success = ...]; a void method
    ignores what the handler returned. *)
Definition success_result (m : method) (v : option value) : value :=
  VStruct (m_result m)
    (match m_ret m with Some _ => v :: no_xs m | None => no_xs m end).

(** ... and after [result.e = e]. *)
Definition exn_result (m : method) (fs : list (option value)) : value :=
  VStruct (m_result m)
    (match m_ret m with Some _ => None :: fs | None => fs end).

Definition internal_error : value :=
  app_exn TA_INTERNAL_ERROR (Some (lit "Internal error")).

(** The reply for what the handler did (t_py_generator.cc 2294-2343): message
    type, schema, class and object.  [None]: TTransportException is
    re-raised. *)
Definition reply_for (m : method) (r : hres)
  : option (Z * schema * nat * value) :=
  match r with
  | HTransport _ => None
  | HReturn v => Some (REPLY, env, m_result m, success_result m v)
  | HRaise (VStruct c fs) =>
      match catch (m_xs m) c (VStruct c fs) with
      | Some xs => Some (REPLY, env, m_result m, exn_result m xs)
      | None => Some (EXCEPTION, app_env, O, internal_error)
      end
  | HRaise _ => Some (EXCEPTION, app_env, O, internal_error)
  | HApp t msg => Some (EXCEPTION, app_env, O, app_exn t msg)
  | HOther => Some (EXCEPTION, app_env, O, internal_error)
  end.

(** The attributes of an args object, passed positionally to the handler. *)
Definition attrs (v : value) : list (option value) :=
  match v with VStruct _ fs => fs | _ => [] end.

(** process_<fn> (t_py_generator.cc 2088-2109 and 2272-2352, the branch
    without twisted and tornado).  Logging is not modelled. *)
Definition process_function (F : nat) (m : method) (seqid : Z)
  : SM (sstate X H) unit :=
  args <- on_in (read_struct P env DFUEL F (m_args m)) ;;
  on_in (readMessageEnd P) ;;;
  r <- call_handler (m_name m) (attrs args) ;;
  match r with
  | HTransport t => raise (ETransport t)
  | _ =>
      if m_oneway m then ret tt
      else match reply_for m r with
           | Some (mtype, e, n, v) => reply (m_name m) mtype seqid e n v
           | None => ret tt
           end
  end.

(** [self._processMap]: later entries replace earlier ones of the same name
    (t_py_generator.cc 2012-2015; the base service's entries come first). *)
Definition lookup (name : list Z) (ms : list method) : option method :=
  find (fun m => name_eqb name (m_name m)) (rev ms).

(** [process] after readMessageBegin (t_py_generator.cc 2027-2063).  The
    message type is not looked at.  The on_message_begin hook is taken to be
    unset. *)
Definition dispatch (F : nat) (ms : list method) (hdr : list Z * Z * Z)
  : SM (sstate X H) unit :=
  let '(name, _, seqid) := hdr in
  match lookup name ms with
  | None =>
      on_in (skip P F SKIP_DEPTH T_STRUCT) ;;;
      on_in (readMessageEnd P) ;;;
      reply name EXCEPTION seqid app_env O
        (app_exn TA_UNKNOWN_METHOD (Some (lit "Unknown function " ++ name)))
  | Some m => process_function F m seqid
  end.

(** [process] (t_py_generator.cc 2018-2063). *)
Definition process (F : nat) (ms : list method) : SM (sstate X H) unit :=
  hdr <- on_in (readMessageBegin P) ;;
  dispatch F ms hdr.

(** * Multiplexed processor (lib/py/src/TMultiplexedProcessor.py) *)

(** TProtocolDecorator.__new__ (TProtocolDecorator.py 20-25) makes an object
    whose class has a copy of the attributes of the decorated object: it
    starts with the same attributes, assignments made through it stay on it,
    and the transport and any list objects are shared.  [undeco old new] is
    what the decorated object's own attributes [old] are after the decorating
    object has reached [new].  _recursion_depth is a copied integer. *)
Variable undeco : X -> X -> X.

Definition decorated {A} (m : SM (sstate X H) A) : SM (sstate X H) A :=
  fun s =>
    match m s with
    | (r, s') =>
        (r, mkss (mkst (undeco (px (s_in s)) (px (s_in s'))) (inp (s_in s'))
                       (out (s_in s')) (depth (s_in s)))
                 (s_out s') (s_sent s') (s_h s'))
    end.

(** SEPARATOR, TMultiplexedProtocol.py 23. *)
Definition COLON := 58.

(** [name.find(":")], [name[0:index]] and [name[index+1:]]. *)
Fixpoint split_name (name : list Z) : option (list Z * list Z) :=
  match name with
  | [] => None
  | c :: r =>
      if c =? COLON then Some ([], r)
      else match split_name r with
           | Some (a, b) => Some (c :: a, b)
           | None => None
           end
  end.

(** [self.services]: a dict, later registrations replacing earlier ones.  Every
    registered processor is taken to be a generated one over one schema. *)
Definition find_service (name : list Z) (svcs : list (list Z * list method))
  : option (list method) :=
  option_map snd (find (fun s => name_eqb name (fst s)) (rev svcs)).
End Processor.

Section Mux.
Context {X H : Type}.
Variable P : proto X.
Variable env : schema.
(** One handler per registered service ([Some name]) and one for the default
    processor ([None]). *)
Variable handlers : option (list Z) -> list Z -> list (option value) -> H -> hres * H.
Variable undeco : X -> X -> X.

(** TMultiplexedProcessor.process (39-70).  StoredMessageProtocol.readMessageBegin
    (77-78) returns the stored header, so the chosen processor starts at
    [dispatch]. *)
Definition mux_process (F : nat) (default : option (list method))
    (svcs : list (list Z * list method)) : SM (sstate X H) unit :=
  '(name, type, seqid) <- on_in (readMessageBegin P) ;;
  if negb (type =? CALL) && negb (type =? ONEWAY)
  then raise (EProtocol TP_NOT_IMPLEMENTED)
  else
    match split_name name with
    | None =>
        match default with
        | Some ms =>
            decorated undeco (dispatch P env (handlers None) F ms (name, type, seqid))
        | None => raise (EProtocol TP_NOT_IMPLEMENTED)
        end
    | Some (svc, call) =>
        match find_service svc svcs with
        | Some ms =>
            decorated undeco
              (dispatch P env (handlers (Some svc)) F ms (call, type, seqid))
        | None => raise (EProtocol TP_NOT_IMPLEMENTED)
        end
    end.
End Mux.

(** TMultiplexedProtocol.writeMessageBegin (TMultiplexedProtocol.py 30-39); all
    other methods are inherited. *)
Definition mux_protocol {X} (svc : list Z) (P : proto X) : proto X :=
  {| writeMessageBegin := fun name type seqid =>
       if (type =? CALL) || (type =? ONEWAY)
       then writeMessageBegin P (svc ++ [COLON] ++ name) type seqid
       else writeMessageBegin P name type seqid;
     writeMessageEnd := writeMessageEnd P;
     writeStructBegin := writeStructBegin P;
     writeStructEnd := writeStructEnd P;
     writeFieldBegin := writeFieldBegin P;
     writeFieldEnd := writeFieldEnd P;
     writeFieldStop := writeFieldStop P;
     writeMapBegin := writeMapBegin P;
     writeMapEnd := writeMapEnd P;
     writeListBegin := writeListBegin P;
     writeListEnd := writeListEnd P;
     writeSetBegin := writeSetBegin P;
     writeSetEnd := writeSetEnd P;
     writeBool := writeBool P;
     writeByte := writeByte P;
     writeI16 := writeI16 P;
     writeI32 := writeI32 P;
     writeI64 := writeI64 P;
     writeDouble := writeDouble P;
     writeString := writeString P;
     writeBinary := writeBinary P;
     writeUuid := writeUuid P;
     readMessageBegin := readMessageBegin P;
     readMessageEnd := readMessageEnd P;
     readStructBegin := readStructBegin P;
     readStructEnd := readStructEnd P;
     readFieldBegin := readFieldBegin P;
     readFieldEnd := readFieldEnd P;
     readMapBegin := readMapBegin P;
     readMapEnd := readMapEnd P;
     readListBegin := readListBegin P;
     readListEnd := readListEnd P;
     readSetBegin := readSetBegin P;
     readSetEnd := readSetEnd P;
     readBool := readBool P;
     readByte := readByte P;
     readI16 := readI16 P;
     readI32 := readI32 P;
     readI64 := readI64 P;
     readDouble := readDouble P;
     readString := readString P;
     readBinary := readBinary P;
     readUuid := readUuid P |}.

(** * Generated synchronous client *)

(** The client's protocol object (one object for both directions, as when no
    [oprot] is given, t_py_generator.cc 1478-1482) and the units flushed to
    the connection so far.  [inp] is what has arrived and not been read. *)
Record cstate_ (X : Type) := mkcs {
  cl : st X;
  cl_sent : list (list byte) }.
Arguments mkcs {X}.
Arguments cl {X}.
Arguments cl_sent {X}.

(** How a call ends for the caller, other than by a protocol or transport
    exception: a value, a declared exception, or a TApplicationException. *)
Inductive cresult :=
| CReturn (v : option value)
| CThrow (v : value)
| CApp (type : option value) (msg : option value).

Section Client.
Context {X : Type}.
Variable P : proto X.
Variable env : schema.

Definition on_cl {A} (m : M X A) : SM (cstate_ X) A :=
  fun s => match m (cl s) with (r, c) => (r, mkcs c (cl_sent s)) end.

Definition cl_flush : SM (cstate_ X) unit :=
  fun s =>
    let c := cl s in
    (Ok tt, mkcs (mkst (px c) (inp c) [] (depth c)) (cl_sent s ++ [out c])).

(** send_<fn> (t_py_generator.cc 1631-1664).  [self._seqid] is 0 and never
    changes in the synchronous client (1482). *)
Definition send (m : method) (args : list (option value))
  : SM (cstate_ X) unit :=
  on_cl (writeMessageBegin P (m_name m) (if m_oneway m then ONEWAY else CALL) 0) ;;;
  on_cl (write_struct P env (m_args m) (VStruct (m_args m) args)) ;;;
  on_cl (writeMessageEnd P) ;;;
  cl_flush.

(** The first attribute that is not None. *)
Fixpoint first_set (fs : list (option value)) : option value :=
  match fs with
  | [] => None
  | Some v :: _ => Some v
  | None :: r => first_set r
  end.

(** The end of recv_<fn> (t_py_generator.cc 1713-1752): [if result.success is
    not None], then each exception, then return or MISSING_RESULT. *)
Definition result_of (m : method) (v : value) : cresult :=
  let missing := CApp (Some (VInt TA_MISSING_RESULT))
                   (Some (VStr (m_name m ++ lit " failed: unknown result"))) in
  match m_ret m, attrs v with
  | Some _, Some r :: _ => CReturn (Some r)
  | Some _, fs =>
      match first_set (tl fs) with Some e => CThrow e | None => missing end
  | None, fs =>
      match first_set fs with Some e => CThrow e | None => CReturn None end
  end.

(** recv_<fn> (t_py_generator.cc 1666-1757).  [fname] and [rseqid] are not
    used. *)
Definition recv (F : nat) (m : method) : SM (cstate_ X) cresult :=
  '(_, mtype, _) <- on_cl (readMessageBegin P) ;;
  if mtype =? EXCEPTION then
    x <- on_cl (read_struct P app_env DFUEL F O) ;;
    on_cl (readMessageEnd P) ;;;
    ret (match attrs x with
         | [msg; type] => CApp type msg
         | _ => CApp None None
         end)
  else
    r <- on_cl (read_struct P env DFUEL F (m_result m)) ;;
    on_cl (readMessageEnd P) ;;;
    ret (result_of m r).
End Client.

(** * A client and a server joined by a connection

    The connection delivers what either side flushes, in order (see
    Transport.v for the buffered and framed transports doing this).  Fuel for
    the readers is the number of bytes that have arrived. *)
Section System.
Context {X H : Type}.
Variable P : proto X.
Variable env : schema.
Variable handler : list Z -> list (option value) -> H -> hres * H.
Variable ms : list method.

Definition feed (s : st X) (b : list byte) : st X :=
  mkst (px s) (inp s ++ b) (out s) (depth s).

Definition sys : Type := cstate_ X * sstate X H.

Definition deliver_requests (y : sys) : sys :=
  let '(c, s) := y in
  (mkcs (cl c) [],
   mkss (feed (s_in s) (concat (cl_sent c))) (s_out s) (s_sent s) (s_h s)).

Definition deliver_replies (y : sys) : sys :=
  let '(c, s) := y in
  (mkcs (feed (cl c) (concat (s_sent s))) (cl_sent c),
   mkss (s_in s) (s_out s) [] (s_h s)).

(** The server handles one request (one turn of TServer's loop, TServer.py
    118-129); an exception is swallowed here (the loop logs it and closes the
    connection). *)
Definition serve_one (y : sys) : sys :=
  let '(c, s) := y in
  (c, snd (process P env handler (length (inp (s_in s))) ms s)).

(** Running client code within the system. *)
Definition at_client {A} (m : nat -> SM (cstate_ X) A) : SM sys A :=
  fun y => match m (length (inp (cl (fst y)))) (fst y) with
           | (r, c) => (r, (c, snd y))
           end.

(** A call <fn>(args): send_<fn>, then recv_<fn> unless one-way
    (t_py_generator.cc 1563-1583), with the server answering in between. *)
Definition call (m : method) (args : list (option value)) : SM sys cresult :=
  at_client (fun _ => send P env m args) ;;;
  (fun y => (Ok tt, deliver_replies (serve_one (deliver_requests y)))) ;;;
  if m_oneway m then ret (CReturn None)
  else at_client (fun F => recv P env F m).

(** The same call when the answer comes too late: recv_<fn> gives up while
    nothing has arrived (here by EOFError, on a socket by
    TTransportException), the reply arrives afterwards. *)
Definition call_late (m : method) (args : list (option value)) : SM sys cresult :=
  at_client (fun _ => send P env m args) ;;;
  fun y => match at_client (fun F => recv P env F m) y with
           | (r, y') => (r, deliver_replies (serve_one (deliver_requests y')))
           end.

(** A client program: calls one after the other; a call that raised does not
    stop it. *)
Fixpoint calls (l : list (method * list (option value))) (y : sys)
  : list (outcome cresult) * sys :=
  match l with
  | [] => ([], y)
  | (m, args) :: r =>
      match call m args y with
      | (o, y') => match calls r y' with (os, y'') => (o :: os, y'') end
      end
  end.
End System.

(** What a decorated protocol object keeps, see [decorated].  The binary
    protocol has no attributes that change.  TCompactProtocol assigns its
    scalar attributes and mutates the lists [__structs] and [__containers]
    (TCompactProtocol.py 141-152). *)
Definition undeco_binary (_ _ : unit) : unit := tt.
Definition undeco_compact (old new : cst) : cst :=
  mkcst (state old) (last_fid old) (bool_fid old) (bool_value old)
        (structs new) (containers new).
