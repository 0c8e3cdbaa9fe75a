(** The accept loops of lib/py/src/server/TServer.py and TProcessPoolServer.py.

    What the environment does is given as data: what accept returns, and for
    each connection what each call made while serving it raises, if anything.
    Exceptions are told apart as the except clauses do. *)
From Coq Require Import ZArith List Bool.
From Verif Require Import Base.
Import ListNotations.

Inductive kind :=
| KTransport   (* TTransportException *)
| KIO          (* IOError/OSError: the only one try_close lets pass *)
| KExn         (* any other subclass of Exception *)
| KBase.       (* BaseException only: KeyboardInterrupt, SystemExit, GeneratorExit *)

(** One connection.  [None]: the call returns. *)
Record conn := mkconn {
  c_itrans : option kind;    (* inputTransportFactory.getTransport *)
  c_iprot : option kind;     (* inputProtocolFactory.getProtocol *)
  c_otrans : option kind;
  c_oprot : option kind;
  c_calls : nat;             (* calls of process that return *)
  c_end : option kind;       (* what the next one raises; None: it never ends *)
  c_iclose : option kind;    (* itrans.close() *)
  c_oclose : option kind }.

Inductive act :=
| Processed                  (* a call of processor.process returned *)
| Logged (k : kind)          (* logger.exception *)
| CloseIn | CloseOut.        (* close() called on the transport *)

(** A computation: what it did, and how it ended. *)
Inductive res (A : Type) := Done (a : A) | Exc (k : kind) | Stuck.
Arguments Done {A}. Arguments Exc {A}. Arguments Stuck {A}.
Definition W (A : Type) := (list act * res A)%type.

Definition wret {A} (a : A) : W A := ([], Done a).
Definition wbind {A B} (m : W A) (f : A -> W B) : W B :=
  match m with
  | (l, Done a) => let '(l', r) := f a in (l ++ l', r)
  | (l, Exc k) => (l, Exc k)
  | (l, Stuck) => (l, Stuck)
  end.
Notation "m >>= f" := (wbind m f) (at level 50, left associativity).
Notation "m >> n" := (wbind m (fun _ => n)) (at level 50, left associativity).

Definition tell (a : act) : W unit := ([a], Done tt).
Definition call (o : option kind) : W unit :=
  match o with None => wret tt | Some k => ([], Exc k) end.
(** try: m except: h(k) *)
Definition catch {A} (m : W A) (h : kind -> W A) : W A :=
  match m with
  | (l, Exc k) => let '(l', r) := h k in (l ++ l', r)
  | m => m
  end.
(** try: m finally: f *)
Definition finally {A} (m : W A) (f : W unit) : W A :=
  match m with
  | (l, Stuck) => (l, Stuck)
  | (l, r) =>
      match f with
      | (l', Done _) => (l ++ l', r)
      | (l', Exc k) => (l ++ l', Exc k)
      | (l', Stuck) => (l ++ l', Stuck)
      end
  end.

(** [while True: self.processor.process(iprot, oprot)] *)
Definition process_loop (c : conn) : W unit :=
  (repeat Processed (c_calls c),
   match c_end c with None => Stuck | Some k => Exc k end).

(** [except TTransportException: pass / except Exception as x: log] *)
Definition swallow (k : kind) : W unit :=
  match k with
  | KTransport => wret tt
  | KIO | KExn => tell (Logged k)
  | KBase => ([], Exc KBase)
  end.

(** The body shared by TSimpleServer.serve (TServer.py 87-110),
    TThreadedServer.handle (135-159) and TThreadPoolServer.serveClient
    (184-209).  [hdr]: the input protocol is THeaderProtocol. *)
Definition serve_conn (hdr : bool) (c : conn) : W unit :=
  call (c_itrans c) >>
  call (c_iprot c) >>
  (if hdr then wret tt else call (c_otrans c) >> call (c_oprot c)) >>
  catch (process_loop c) swallow >>
  tell CloseIn >> call (c_iclose c) >>
  (if hdr then wret tt else tell CloseOut >> call (c_oclose c)).

(** What accept does. *)
Inductive accept :=
| AcNone                     (* returns a false value *)
| AcRaise (k : kind)
| AcConn (c : conn).

(** State of an accept loop after the events given. *)
Inductive status := Accepting | Dead (k : kind) | Busy.

(** TSimpleServer.serve (TServer.py 80-110): the log of each connection, in
    order, and the state of the loop. *)
Fixpoint simple_serve (hdr : bool) (es : list accept) : list (list act) * status :=
  match es with
  | [] => ([], Accepting)
  | AcNone :: r => simple_serve hdr r
  | AcRaise k :: _ => ([], Dead k)
  | AcConn c :: r =>
      match serve_conn hdr c with
      | (l, Done _) => let '(ls, s) := simple_serve hdr r in (l :: ls, s)
      | (l, Exc k) => ([l], Dead k)
      | (l, Stuck) => ([l], Busy)
      end
  end.

(** TThreadedServer.serve (TServer.py 120-133).  [start i] is what starting the
    thread of connection [i] raises.  A thread serves its connection on its own;
    an exception leaving [handle] ends the thread only.  The result holds, for
    each connection accepted, what its thread did, if it was started. *)
Fixpoint threaded_serve (hdr : bool) (start : nat -> option kind) (i : nat)
    (es : list accept) : list (option (list act * res unit)) * status :=
  match es with
  | [] => ([], Accepting)
  | AcNone :: r => threaded_serve hdr start i r
  | AcRaise KBase :: _ => ([], Dead KBase)
  | AcRaise _ :: r => threaded_serve hdr start i r
  | AcConn c :: r =>
      match start i with
      | Some KBase => ([None], Dead KBase)
      | Some _ => let '(ls, s) := threaded_serve hdr start (S i) r in (None :: ls, s)
      | None =>
          let '(ls, s) := threaded_serve hdr start (S i) r in
          (Some (serve_conn hdr c) :: ls, s)
      end
  end.

(** * TThreadPoolServer (TServer.py 175-230)

    [queue]: clients accepted and not yet taken; [threads w]: worker [w] is
    waiting on the queue, serving, or gone; [done]: what each served connection's
    service did, latest first. *)
Inductive worker := Idle | Serving (c : conn) | Gone.

Record pool := mkpool {
  queue : list conn; threads : nat -> worker; loop : status;
  done : list (conn * W unit) }.

Inductive pev :=
| PAccept (a : accept)      (* accept in the main loop returns *)
| PTake (w : nat)           (* self.clients.get() returns in worker [w] *)
| PFinish (w : nat).        (* serveClient ends in worker [w] *)

Definition setw (f : nat -> worker) (w : nat) (x : worker) : nat -> worker :=
  fun v => if Nat.eqb v w then x else f v.

(** None: the event cannot happen. *)
Definition pool_step (hdr : bool) (p : pool) (e : pev) : option pool :=
  match e with
  | PAccept a =>
      match loop p with
      | Accepting =>
          Some match a with
               | AcNone => p
               | AcRaise KBase => mkpool (queue p) (threads p) (Dead KBase) (done p)
               | AcRaise _ => p
               | AcConn c => mkpool (queue p ++ [c]) (threads p) (loop p) (done p)
               end
      | _ => None
      end
  | PTake w =>
      match threads p w, queue p with
      | Idle, c :: q => Some (mkpool q (setw (threads p) w (Serving c)) (loop p) (done p))
      | _, _ => None
      end
  | PFinish w =>
      match threads p w with
      | Serving c =>
          match serve_conn hdr c with
          | (_, Stuck) => None
          | (_, Done _) as x =>
              Some (mkpool (queue p) (setw (threads p) w Idle) (loop p) ((c, x) :: done p))
          | (_, Exc KBase) as x =>
              Some (mkpool (queue p) (setw (threads p) w Gone) (loop p) ((c, x) :: done p))
          | (_, Exc _) as x =>
              Some (mkpool (queue p) (setw (threads p) w Idle) (loop p) ((c, x) :: done p))
          end
      | _ => None
      end
  end.

Fixpoint pool_run (hdr : bool) (es : list pev) (p : pool) : option pool :=
  match es with
  | [] => Some p
  | e :: r => match pool_step hdr p e with Some p1 => pool_run hdr r p1 | None => None end
  end.

(** [n] worker threads started. *)
Definition pool_start (n : nat) : pool :=
  mkpool [] (fun w => if (w <? n)%nat then Idle else Gone) Accepting [].

(** * TForkingServer (TServer.py 250-323) *)

(** try_close: IOError is logged. *)
Definition try_close (a : act) (o : option kind) : W unit :=
  catch (tell a >> call o)
    (fun k => match k with KIO => tell (Logged KIO) | _ => ([], Exc k) end).

(** What the child does with the connection (TServer.py 277-306).  Done code:
    os._exit(code). *)
Definition child_body (hdr : bool) (c : conn) : W nat :=
  call (c_itrans c) >>
  call (c_iprot c) >>
  (if hdr then wret tt else call (c_otrans c) >> call (c_oprot c)) >>
  finally
    (catch (process_loop c >> wret 0%nat)
       (fun k => match k with
                 | KTransport => wret 0%nat
                 | KIO | KExn => tell (Logged k) >> wret 1%nat
                 | KBase => ([], Exc KBase)
                 end))
    (try_close CloseIn (c_iclose c) >>
     (if hdr then wret tt else try_close CloseOut (c_oclose c))).

(** The child process as a whole: an exception of [child_body] is caught by the
    handlers of the accept loop (TServer.py 308-311), and the child then goes on
    accepting. *)
Inductive child := Exited (code : nat) | ChildAccepts | ChildDead (k : kind) | ChildBusy.

Definition child_run (hdr : bool) (c : conn) : list act * child :=
  match child_body hdr c with
  | (l, Done n) => (l, Exited n)
  | (l, Exc KBase) => (l, ChildDead KBase)
  | (l, Exc KTransport) => (l, ChildAccepts)
  | (l, Exc k) => (l ++ [Logged k], ChildAccepts)
  | (l, Stuck) => (l, ChildBusy)
  end.

(** The parent's part (TServer.py 263-275).  [fork] is what os.fork raises,
    [collect] what collect_children raises (children.remove of a pid it does not
    know); parent transports are closed by try_close. *)
Definition parent_body (fork collect : option kind) (c : conn) : W unit :=
  call fork >> call collect >>
  call (c_itrans c) >> call (c_otrans c) >>
  try_close CloseIn (c_iclose c) >> try_close CloseOut (c_oclose c).

Record fork_result := mkfork {
  parent_log : list act; child_log : option (list act * child) }.

Fixpoint forking_serve (hdr : bool) (fork collect : nat -> option kind) (i : nat)
    (es : list accept) : list fork_result * status :=
  match es with
  | [] => ([], Accepting)
  | AcNone :: r => forking_serve hdr fork collect i r
  | AcRaise k :: _ => ([], Dead k)
  | AcConn c :: r =>
      let ch := match fork i with None => Some (child_run hdr c) | Some _ => None end in
      match catch (parent_body (fork i) (collect i) c) swallow with
      | (l, Done _) =>
          let '(ls, s) := forking_serve hdr fork collect (S i) r in
          (mkfork l ch :: ls, s)
      | (l, Exc k) => ([mkfork l ch], Dead k)
      | (l, Stuck) => ([mkfork l ch], Busy)
      end
  end.

(** * TProcessPoolServer.workerProcess (TProcessPoolServer.py 59-91): each worker
    process runs this loop; [Dead KBase] is the return on KeyboardInterrupt or
    SystemExit.  serveClient does not know THeaderProtocol. *)
Definition procpool_conn (c : conn) : W unit :=
  call (c_itrans c) >> call (c_otrans c) >>
  call (c_iprot c) >> call (c_oprot c) >>
  catch (process_loop c) swallow >>
  tell CloseIn >> call (c_iclose c) >>
  tell CloseOut >> call (c_oclose c).

Fixpoint procpool_serve (es : list accept) : list (list act) * status :=
  match es with
  | [] => ([], Accepting)
  | AcNone :: r => procpool_serve r
  | AcRaise KBase :: _ => ([], Dead KBase)
  | AcRaise _ :: r => procpool_serve r
  | AcConn c :: r =>
      match procpool_conn c with
      | (l, Done _) => let '(ls, s) := procpool_serve r in (l :: ls, s)
      | (l, Exc KBase) => ([l], Dead KBase)
      | (l, Exc k) => let '(ls, s) := procpool_serve r in ((l ++ [Logged k]) :: ls, s)
      | (l, Stuck) => ([l], Busy)
      end
  end.
