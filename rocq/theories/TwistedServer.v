(** The Twisted server: lib/py/src/transport/TTwisted.py (ThriftServerProtocol,
    ThriftResource), the processor generated for it (t_py_generator.cc 2018-2063,
    2088-2214, [gen_twisted_] branches), and a connection between it and the
    Twisted client of Twisted.v.  No proofs here.

    A handler may answer at once or hand out a Deferred that fires later, in any
    order.  Invocations of the handler are numbered in order. *)
From Coq Require Import String.
From Coq Require Import ZArith List Bool.
From Coq Require Import Init.Byte.
From Verif Require Import Base Bytes Proto Rpc Twisted TornadoRpc.
Import ListNotations.
Open Scope Z_scope.
Open Scope list_scope.

(** * basic.Int32StringReceiver (Twisted), with MAX_LENGTH of TTwisted.py 63, 216 *)

(** sendString: [struct.pack("!I", len(string)) + string]; [None]:
    StringTooLongError. *)
Definition send_string (u : list byte) : option (list byte) :=
  if Z.of_nat (length u) <? 4294967296
  then Some (be_bytes 4 (Z.of_nat (length u)) ++ u)
  else None.

(** What dataReceived finds in front of the bytes not yet processed. *)
Inductive cut :=
| CWait                                        (* no whole string yet *)
| CLong                                        (* lengthLimitExceeded *)
| CString (s rest : list byte).

Definition MAX_LENGTH := 2147483647.

Definition next_string (i : list byte) : cut :=
  if (length i <? 4)%nat then CWait
  else
    let n := unpack_unsigned (firstn 4 i) in
    let r := skipn 4 i in
    if n >? MAX_LENGTH then CLong
    else if n <=? Z.of_nat (length r)
         then CString (firstn (Z.to_nat n) r) (skipn (Z.to_nat n) r)
         else CWait.

(** * The generated processor *)

(** What [process] does with a frame: raise, answer at once (unknown method), or
    invoke the handler, whose Deferred has fired already ([Some]) or not. *)
Inductive tproc (H : Type) :=
| PRaised
| PAnswered (msg : list byte)
| PInvoked (m : method) (seqid : Z) (args : list (option value)) (r : option hres) (h : H).
Arguments PRaised {H}.
Arguments PAnswered {H}.
Arguments PInvoked {H}.

Section Server.
Context {X H : Type}.
Variable P : proto X.
Variable env : schema.
Variable handler : list Z -> list (option value) -> H -> option hres * H.
Variable ms : list method.
(** A new protocol object, as both factories make. *)
Variable x0 : X.

(** writeMessageBegin; x.write; writeMessageEnd (the flush of a TMemoryBuffer
    does nothing). *)
Definition write_message (name : list Z) (mtype seqid : Z) (e : schema) (n : nat) (v : value)
  : M X unit :=
  writeMessageBegin P name mtype seqid ;;;
  write_struct P e n v ;;;
  writeMessageEnd P.

(** process (t_py_generator.cc 2027-2063) and the first half of process_<fn>
    (2102-2139): [defer.maybeDeferred(self._handler.<fn>, ..)]. *)
Definition tw_process (frame : list byte) (h : H) : tproc H :=
  let F := length frame in
  match readMessageBegin P (mkst x0 frame [] 0) with
  | (Ok (name, _, seqid), s) =>
      match lookup name ms with
      | None =>
          match (skip P F SKIP_DEPTH T_STRUCT ;;; readMessageEnd P) s with
          | (Ok _, _) =>
              match write_message name EXCEPTION seqid app_env O
                      (app_exn TA_UNKNOWN_METHOD (Some (lit "Unknown function " ++ name)))
                      (mkst x0 [] [] 0) with
              | (Ok _, o) => PAnswered (out o)
              | _ => PRaised
              end
          | _ => PRaised
          end
      | Some m =>
          match (x <- read_struct P env DFUEL F (m_args m) ;;
                 readMessageEnd P ;;; ret x)%monad s with
          | (Ok x, _) =>
              let '(r, h') := handler (m_name m) (attrs x) h in
              PInvoked m seqid (attrs x) r h'
          | _ => PRaised
          end
      end
  | _ => PRaised
  end.

(** write_results_exception_<fn> (2163-2209) for an exception that is not one of
    the schema's, [o] being the output protocol as it then is; [None]: it
    raises. *)
Definition tw_exception (m : method) (seqid : Z) (v : value) (o : st X)
  : option (list byte) :=
  match write_message (m_name m) EXCEPTION seqid app_env O v o with
  | (Ok _, o') => Some (out o')
  | _ => None
  end.

(** The callback and errback on the handler's Deferred: write_results_success_<fn>
    (2145-2158), whose own exceptions also go to write_results_exception_<fn>
    with whatever was written already; handle_exception_<fn> of a one-way method
    (2142-2144, 2210-2213).  The contents of [tmo] afterwards; [None]: the
    Deferred ends with an exception. *)
Definition tw_answer (m : method) (seqid : Z) (r : hres) : option (list byte) :=
  if m_oneway m then
    match r with HTransport _ => None | _ => Some [] end
  else
    match r with
    | HReturn v =>
        match write_message (m_name m) REPLY seqid env (m_result m) (success_result m v)
                (mkst x0 [] [] 0) with
        | (Ok _, o) => Some (out o)
        | (Raise (ETransport _), _) => None
        | (Raise (EApplication t), o) => tw_exception m seqid (app_exn t None) o
        | (Raise _, o) => tw_exception m seqid internal_error o
        | (Diverge, _) => None
        end
    | _ =>
        match reply_for env m r with
        | Some (mtype, e, n, v) =>
            match write_message (m_name m) mtype seqid e n v (mkst x0 [] [] 0) with
            | (Ok _, o) => Some (out o)
            | _ => None
            end
        | None => None
        end
    end.

(** * ThriftServerProtocol *)

(** [w_buf]: _unprocessed; [w_closing]: loseConnection was called or an exception
    escaped from dataReceived, so nothing more is read; [w_next]: invocations so
    far; [w_pending]: those whose Deferred has not fired, with method and
    sequence id; [w_done]: those whose Deferred has, in that order; [w_sent]: the
    messages handed to sendString, with the invocation they answer ([None]: an
    unknown method); [w_out]: bytes given to the transport and not yet with the
    client; [w_calls]: the names and arguments the handler was invoked with. *)
Record tws := mktws {
  w_buf : list byte; w_closing : bool; w_next : nat;
  w_pending : list (nat * (method * Z)); w_done : list (nat * hres);
  w_sent : list (option nat * list byte); w_out : list byte;
  w_calls : list (list Z * list (option value)); w_h : H }.

Definition tws_start (h : H) : tws := mktws [] false 0 [] [] [] [] [] h.

(** dispatch (218-219). *)
Definition tw_dispatch (d : option nat) (msg : list byte) (y : tws) : tws :=
  match send_string msg with
  | Some b => mktws (w_buf y) (w_closing y) (w_next y) (w_pending y) (w_done y)
                (w_sent y ++ [(d, msg)]) (w_out y ++ b) (w_calls y) (w_h y)
  | None => y
  end.

(** processOk (224-228): nothing is sent when nothing was written.  An exception
    of sendString ends in the Deferred, unseen. *)
Definition tw_ok (d : option nat) (msg : list byte) (y : tws) : tws :=
  match msg with [] => y | _ => tw_dispatch d msg y end.

(** processError (221-222). *)
Definition tw_error (y : tws) : tws :=
  mktws (w_buf y) true (w_next y) (w_pending y) (w_done y) (w_sent y) (w_out y)
    (w_calls y) (w_h y).

(** The handler's Deferred [d] fires with [r]. *)
Definition tw_finish (d : nat) (m : method) (seqid : Z) (r : hres) (y : tws) : tws :=
  let y1 := mktws (w_buf y) (w_closing y) (w_next y) (w_pending y) (w_done y ++ [(d, r)])
              (w_sent y) (w_out y) (w_calls y) (w_h y) in
  match tw_answer m seqid r with
  | Some msg => tw_ok (Some d) msg y1
  | None => tw_error y1
  end.

(** stringReceived (230-239); [false]: it raises. *)
Definition tw_string (frame : list byte) (y : tws) : bool * tws :=
  match tw_process frame (w_h y) with
  | PRaised => (false, y)
  | PAnswered msg => (true, tw_ok None msg y)
  | PInvoked m seqid args r h =>
      let d := w_next y in
      let calls := w_calls y ++ [(m_name m, args)] in
      (true,
       match r with
       | Some r => tw_finish d m seqid r
           (mktws (w_buf y) (w_closing y) (S d) (w_pending y) (w_done y) (w_sent y) (w_out y)
              calls h)
       | None => mktws (w_buf y) (w_closing y) (S d) (w_pending y ++ [(d, (m, seqid))])
                   (w_done y) (w_sent y) (w_out y) calls h
       end)
  end.

Definition set_buf (b : list byte) (y : tws) : tws :=
  mktws b (w_closing y) (w_next y) (w_pending y) (w_done y) (w_sent y) (w_out y)
    (w_calls y) (w_h y).

(** The loop of dataReceived (Twisted's IntNStringReceiver).  It does not stop
    when stringReceived calls loseConnection.  Every turn uses up at least the
    four bytes of a length, so [S (length i)] turns are enough. *)
Fixpoint tw_loop (fuel : nat) (i : list byte) (y : tws) : tws :=
  match fuel with
  | O => set_buf i y
  | S n =>
      match next_string i with
      | CWait => set_buf i y
      | CLong => tw_error (set_buf i y)
      | CString s rest =>
          match tw_string s y with
          | (true, y') => tw_loop n rest y'
          | (false, y') => tw_error (set_buf i y')
          end
      end
  end.

(** Bytes arrive. *)
Definition tw_data (b : list byte) (y : tws) : tws :=
  if w_closing y then y
  else tw_loop (S (length (w_buf y ++ b))) (w_buf y ++ b) y.

Fixpoint take_pending (d : nat) (l : list (nat * (method * Z)))
  : option (method * Z * list (nat * (method * Z))) :=
  match l with
  | [] => None
  | (k, c) :: r =>
      if Nat.eqb k d then Some (c, r)
      else match take_pending d r with
           | Some (c', r') => Some (c', (k, c) :: r')
           | None => None
           end
  end.

(** A Deferred the handler gave out fires. *)
Definition tw_fire (d : nat) (r : hres) (y : tws) : tws :=
  match take_pending d (w_pending y) with
  | Some ((m, seqid), l) =>
      tw_finish d m seqid r
        (mktws (w_buf y) (w_closing y) (w_next y) l (w_done y) (w_sent y) (w_out y)
           (w_calls y) (w_h y))
  | None => y
  end.

(** What happens to a server, whoever its client is. *)
Inductive sevent := SData (b : list byte) | SFire (d : nat) (r : hres).

Definition sstep (e : sevent) (y : tws) : tws :=
  match e with
  | SData b => tw_data b y
  | SFire d r => tw_fire d r y
  end.

Definition srun (es : list sevent) (y : tws) : tws := fold_left (fun y e => sstep e y) es y.

Definition drop_out (n : nat) (y : tws) : tws :=
  mktws (w_buf y) (w_closing y) (w_next y) (w_pending y) (w_done y) (w_sent y)
    (skipn n (w_out y)) (w_calls y) (w_h y).

(** * ThriftResource (294-329) *)

(** What becomes of an HTTP request: a response with code 200 and this body, an
    exception out of render_POST (Twisted answers with its error page), no
    response ever ([_cbProcess] is only a callback, NOT_DONE_YET was returned),
    or a response when the handler's Deferred has fired. *)
Inductive http :=
| HFinished (body : list byte)
| HFailed
| HNever
| HLater (m : method) (seqid : Z).

Definition rs_fired (m : method) (seqid : Z) (r : hres) : http :=
  match tw_answer m seqid r with
  | Some msg => HFinished msg
  | None => HNever
  end.

Definition rs_post (data : list byte) (h : H) : http * H :=
  match tw_process data h with
  | PRaised => (HFailed, h)
  | PAnswered msg => (HFinished msg, h)
  | PInvoked m seqid _ (Some r) h' => (rs_fired m seqid r, h')
  | PInvoked m seqid _ None h' => (HLater m seqid, h')
  end.

(** * A Twisted client and a Twisted server *)

(** [x_wbuf]: the __wbuf of the client's TCallbackTransport; [x_up]: sent by the
    client and under way; [x_in]: the client's _unprocessed. *)
Record xsys := mkx {
  x_cl : client; x_wbuf : list byte; x_up : list byte; x_in : list byte; x_sv : tws }.

Inductive xevent :=
| XCall (m : method) (args : list (option value))  (* the user calls a method *)
| XUp (n : nat)                      (* at most [n] more bytes reach the server *)
| XFire (d : nat) (r : hres)         (* the Deferred of invocation [d] fires *)
| XDown (n : nat)                    (* at most [n] more bytes reach the client *)
| XLost.                             (* the client's connectionLost is called *)

(** The user's callbacks call nothing here (C40 has those that do). *)
Definition quiet (_ : nat) (_ : firing) : list ccall := [].

(** <fn>(args) of the client: the request as twrite_call writes it, in front of it
    what an earlier failed call left in __wbuf. *)
Definition xcall (m : method) (args : list (option value)) (y : xsys) : xsys :=
  let '(sent, wbuf, b) :=
    match twrite_call P env m args (c_seq (x_cl y) + 1) (mkst x0 [] (x_wbuf y) 0) with
    | (Ok _, s) => match send_string (out s) with
                   | Some b => (true, [], b)
                   | None => (false, [], [])
                   end
    | (_, s) => (false, out s, [])
    end in
  if c_alive (x_cl y)
  then mkx (snd (do_call quiet (mkcall (m_oneway m) sent) (x_cl y))) wbuf
         (x_up y ++ b) (x_in y) (x_sv y)
  else mkx (snd (do_call quiet (mkcall (m_oneway m) sent) (x_cl y))) (x_wbuf y)
         (x_up y) (x_in y) (x_sv y).

(** connectionLost. *)
Definition cl_lost (c : client) : client :=
  snd (run quiet (S (length (c_reqs c))) [WLost] c).

(** The client's dataReceived: an exception, or a string too long, has the
    connection closed. *)
Fixpoint cl_loop (fuel : nat) (i : list byte) (c : client) : client * list byte :=
  match fuel with
  | O => (c, i)
  | S n =>
      match next_string i with
      | CWait => (c, i)
      | CLong => (cl_lost c, i)
      | CString s rest =>
          let r := decode P env (length s) ms x0 s in
          let c' := snd (do_frame quiet r c) in
          match r with
          | RGood q _ =>
              match pop q (c_reqs c) with
              | Some _ => cl_loop n rest c'
              | None => (cl_lost c', i)
              end
          | _ => (cl_lost c', i)
          end
      end
  end.

Definition cl_data (b : list byte) (y : xsys) : xsys :=
  let '(c, i) :=
    if c_alive (x_cl y) then cl_loop (S (length (x_in y ++ b))) (x_in y ++ b) (x_cl y)
    else (x_cl y, x_in y) in
  mkx c (x_wbuf y) (x_up y) i (x_sv y).

Definition set_sv (s : tws) (y : xsys) : xsys :=
  mkx (x_cl y) (x_wbuf y) (x_up y) (x_in y) s.

Definition xstep (e : xevent) (y : xsys) : xsys :=
  match e with
  | XCall m args => xcall m args y
  | XUp n =>
      mkx (x_cl y) (x_wbuf y) (skipn n (x_up y)) (x_in y)
        (tw_data (firstn n (x_up y)) (x_sv y))
  | XFire d r => set_sv (tw_fire d r (x_sv y)) y
  | XDown n =>
      cl_data (firstn n (w_out (x_sv y))) (set_sv (drop_out n (x_sv y)) y)
  | XLost => mkx (cl_lost (x_cl y)) (x_wbuf y) (x_up y) (x_in y) (x_sv y)
  end.

Definition xrun (es : list xevent) (y : xsys) : xsys :=
  fold_left (fun y e => xstep e y) es y.

Definition xstart (h : H) : xsys := mkx client0 [] [] [] (tws_start h).
End Server.
Arguments tws : clear implicits.
Arguments xsys : clear implicits.
