(** THttpServer (lib/py/src/server/THttpServer.py).  No proofs here.

    What happens on one POST is recorded as a trace of the HTTP responses sent
    and the calls of the handler, in order. *)
From Coq Require Import ZArith List Bool.
From Coq Require Import Init.Byte.
From Verif Require Import Base Bytes Utf8 Proto Compact Rpc.
Import ListNotations.
Open Scope Z_scope.
Open Scope list_scope.

Inductive hev :=
| Response (length : option Z) (body : list byte)  (* 200, Content-Length, body *)
| Other_response                                   (* sent by a ResponseException's function *)
| Call (name : list Z) (args : list (option value)).

(** What the request object shares with the hook and the handler: the trace,
    [thttpserver._replied], and the handler's own state. *)
Record world (H : Type) := mkworld { w_trace : list hev; w_replied : bool; w_h : H }.
Arguments mkworld {H}. Arguments w_trace {H}. Arguments w_replied {H}. Arguments w_h {H}.

Definition hstate (X H : Type) := sstate X (world H).

(** A handler, with its calls recorded. *)
Definition traced {H} (handler : list Z -> list (option value) -> H -> hres * H)
    (name : list Z) (args : list (option value)) (w : world H) : hres * world H :=
  match handler name args (w_h w) with
  | (r, h) => (r, mkworld (w_trace w ++ [Call name args]) (w_replied w) h)
  end.

(** on_begin (THttpServer.py 104-115). *)
Definition on_begin {X H} (hdr : list Z * Z * Z) : SM (hstate X H) unit :=
  fun s =>
    let '(_, type, _) := hdr in
    if type =? ONEWAY then
      (Ok tt, mkss (s_in s) (s_out s) (s_sent s)
                (mkworld (w_trace (s_h s) ++ [Response None []]) true (w_h (s_h s))))
    else (Ok tt, s).

(** A processor as THttpServer sees it: it is given the hook set by
    on_message_begin, and returns, raises, or raises ResponseException, in which
    case the answer holds what the exception's function does. *)
Definition processor (X H : Type) :=
  (list Z * Z * Z -> SM (hstate X H) unit) -> SM (hstate X H) (option (list hev)).

Section Generated.
Context {X H : Type}.
Variable P : proto X.
Variable env : schema.

(** The generated processor with its hook (t_py_generator.cc 2019-2063).  A
    handler's ResponseException is caught by [except Exception] in process_<fn>
    (2338-2352) and answered as any other error. *)
Definition gen_processor (handler : list Z -> list (option value) -> H -> hres * H)
    (F : nat) (ms : list method) : processor X H :=
  fun hook =>
    hdr <- on_in (readMessageBegin P) ;;
    hook hdr ;;;
    dispatch P env (traced handler) F ms hdr ;;;
    ret None.

(** TMultiplexedProcessor.  on_message_begin (TMultiplexedProcessor.py 41-43)
    reaches the registered services and not the default processor. *)
Definition mux_processor
    (handlers : option (list Z) -> list Z -> list (option value) -> H -> hres * H)
    (undeco : X -> X -> X) (F : nat) (default : option (list method))
    (svcs : list (list Z * list method)) : processor X H :=
  fun hook =>
    '(name, type, seqid) <- on_in (readMessageBegin P) ;;
    if negb (type =? CALL) && negb (type =? ONEWAY)
    then raise (EProtocol TP_NOT_IMPLEMENTED)
    else
      match split_name name with
      | None =>
          match default with
          | Some ms =>
              decorated undeco
                (dispatch P env (traced (handlers None)) F ms (name, type, seqid)) ;;;
              ret None
          | None => raise (EProtocol TP_NOT_IMPLEMENTED)
          end
      | Some (svc, call) =>
          match find_service svc svcs with
          | Some ms =>
              decorated undeco
                (hook (call, type, seqid) ;;;
                 dispatch P env (traced (handlers (Some svc))) F ms (call, type, seqid)) ;;;
              ret None
          | None => raise (EProtocol TP_NOT_IMPLEMENTED)
          end
      end.
End Generated.

(** A request: the Content-Length header if it is present and a number, and the
    body.  The body is taken to have arrived in full; a protocol that reads
    past it would wait on the connection. *)
Record request := mkreq { content_length : option Z; body : list byte }.

Definition start_state {X H} (x0 : X) (b : list byte) (h : H) : hstate X H :=
  mkss (mkst x0 b [] 0) (mkst x0 [] [] 0) [] (mkworld [] false h).

(** [otrans.getvalue()]: everything written; flushing a TMemoryBuffer does
    nothing (TTransport.py 206-260). *)
Definition getvalue {X H} (s : hstate X H) : list byte :=
  concat (s_sent s) ++ out (s_out s).

(** do_POST (THttpServer.py 80-102).  An exception leaves to the base class,
    which sends nothing. *)
Definition do_post {X H} (proc : processor X H) (x0 : X) (rq : request) (h : H)
  : list hev * outcome unit * H :=
  match content_length rq with
  | None => ([], Raise ETypeError, h)
  | Some _ =>
      match proc on_begin (start_state x0 (body rq) h) with
      | (Ok None, s) =>
          ((if w_replied (s_h s) then w_trace (s_h s)
            else w_trace (s_h s)
                 ++ [Response (Some (Z.of_nat (length (getvalue s)))) (getvalue s)]),
           Ok tt, w_h (s_h s))
      | (Ok (Some evs), s) => (w_trace (s_h s) ++ evs, Ok tt, w_h (s_h s))
      | (Raise e, s) => (w_trace (s_h s), Raise e, w_h (s_h s))
      | (Diverge, s) => (w_trace (s_h s), Diverge, w_h (s_h s))
      end
  end.

(** The server handling requests one after the other (HTTPServer, the default
    server_class); what a request leaves in the handler is there for the next. *)
Fixpoint serve {X H} (proc : processor X H) (x0 : X) (rqs : list request) (h : H)
  : list (list hev) :=
  match rqs with
  | [] => []
  | rq :: r =>
      match do_post proc x0 rq h with
      | (t, _, h') => t :: serve proc x0 r h'
      end
  end.

(** * Requests handled by several threads

    With a threading server_class, do_POST runs concurrently; [_replied] and the
    processor's hook are shared.  One step is one access to shared state. *)
Inductive tstep :=
| SReset            (* thttpserver._replied = False, 82 *)
| SHook             (* processor.on_message_begin(self.on_begin), 90 *)
| SBegin            (* the processor calls its hook: on_begin, 111-115 *)
| SCall             (* the handler runs *)
| SReply.           (* if not thttpserver._replied: respond, 95-102 *)

(** [t_hook]: whose on_begin is installed; [t_trace]: for each event, the
    connection it happened on. *)
Record tstate := mkts { t_replied : bool; t_hook : nat; t_trace : list (nat * tstep) }.

Definition tdo (oneway : nat -> bool) (i : nat) (a : tstep) (s : tstate) : tstate :=
  match a with
  | SReset => mkts false (t_hook s) (t_trace s)
  | SHook => mkts (t_replied s) i (t_trace s)
  | SBegin =>
      if oneway i then mkts true (t_hook s) (t_trace s ++ [(t_hook s, SReply)])
      else s
  | SCall => mkts (t_replied s) (t_hook s) (t_trace s ++ [(i, SCall)])
  | SReply =>
      if t_replied s then s
      else mkts (t_replied s) (t_hook s) (t_trace s ++ [(i, SReply)])
  end.

Definition trun (oneway : nat -> bool) (l : list (nat * tstep)) (s : tstate) : tstate :=
  fold_left (fun s e => tdo oneway (fst e) (snd e) s) l s.

Definition program : list tstep := [SReset; SHook; SBegin; SCall; SReply].
