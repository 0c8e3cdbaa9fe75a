(** Calls over Tornado: the generated client (t_py_generator.cc, [gen_tornado_]
    branches), TTornadoStreamTransport and TTornadoServer (lib/py/src/TTornado.py)
    joined by a connection.  No proofs here.

    One client, one connection, one server coroutine for it (handle_stream).  The
    event loop may interleave new calls, bytes arriving at either end in pieces
    of any size, the server's turns and the client's receiving coroutine in any
    order: an execution is a list of events. *)
From Coq Require Import ZArith List Bool.
From Coq Require Import Init.Byte.
From Verif Require Import Base Bytes Proto Rpc Twisted.
Import ListNotations.
Open Scope Z_scope.
Open Scope list_scope.

(** flush (TTornado.py 162-168) frames what was written; [None]: struct.error
    beyond 2^31-1 bytes. *)
Definition tframe (b : list byte) : option (list byte) :=
  match pack_signed 4 (Z.of_nat (length b)) tt with
  | (Ok h, _) => Some (h ++ b)
  | _ => None
  end.

Fixpoint tframes (us : list (list byte)) : option (list byte) :=
  match us with
  | [] => Some []
  | u :: r =>
      match tframe u, tframes r with
      | Some a, Some b => Some (a ++ b)
      | _, _ => None
      end
  end.

(** readFrame (TTornado.py 147-157) on what has arrived: a whole frame and what
    is left, or [None] while there is none.  What Tornado's read_bytes does
    with a negative number is outside the repository: taken to wait. *)
Definition take_frame (i : list byte) : option (list byte * list byte) :=
  if (length i <? 4)%nat then None
  else
    let n := unpack_signed 4 (firstn 4 i) in
    let r := skipn 4 i in
    if (0 <=? n) && (n <=? Z.of_nat (length r))
    then Some (firstn (Z.to_nat n) r, skipn (Z.to_nat n) r)
    else None.

(** How a call <fn>(args) itself ended: with a Future (numbered in order of
    creation), with nothing (one-way), or by raising. *)
Definition made := outcome (option nat).

(** The client: [k_seq] is _seqid; [k_next] the number of Futures made; [k_reqs]
    is _reqs; [k_running]: the coroutine _start_receiving has not ended;
    [k_open]: the stream is open as far as the client knows; [k_wbuf] is the
    transport's __wbuf; [k_made], [k_done], [k_cancelled]: the calls made, the
    Futures given a result or an exception, and those the user cancelled. *)
Record tclient := mktc {
  k_seq : Z; k_next : nat; k_reqs : list (Z * nat); k_running : bool; k_open : bool;
  k_wbuf : list byte; k_made : list made; k_done : list (nat * outcome cresult);
  k_cancelled : list nat }.

(** [t_up]: written by the client and under way; [t_up_in]: arrived at the
    server and not consumed; [t_down], [t_down_in] in the other direction.
    [t_out] is the server's oprot with its transport's __wbuf; [t_serving]:
    handle_stream's loop has not ended. *)
Record tsys (X H : Type) := mkts {
  t_cl : tclient;
  t_up : list byte; t_up_in : list byte; t_down : list byte; t_down_in : list byte;
  t_out : st X; t_h : H; t_serving : bool }.
Arguments mkts {X H}.
Arguments t_cl {X H}.
Arguments t_up {X H}.
Arguments t_up_in {X H}.
Arguments t_down {X H}.
Arguments t_down_in {X H}.
Arguments t_out {X H}.
Arguments t_h {X H}.
Arguments t_serving {X H}.

Inductive tevent :=
| TCall (m : method) (args : list (option value))  (* the user calls a method *)
| TUp (n : nat)                      (* at most [n] more bytes reach the server *)
| TServe                             (* the server's turn: one frame if complete *)
| TDown (n : nat)                    (* at most [n] more bytes reach the client *)
| TReceive                           (* the receiving coroutine's turn *)
| TInject (b : list byte)            (* bytes from elsewhere reach the client *)
| TLost                              (* the client's stream is closed *)
| TCancel (d : nat).                 (* the user cancels a Future *)

Definition tc_start : tclient := mktc 0 0 [] true true [] [] [] [].

(** Future.done() *)
Definition is_done (d : nat) (k : tclient) : bool :=
  existsb (Nat.eqb d) (map fst (k_done k)) || existsb (Nat.eqb d) (k_cancelled k).

(** future.set_result or set_exception: asyncio's Future (tornado.concurrent.Future
    is that class) raises InvalidStateError when it is already done; [None]:
    raised. *)
Definition settle (d : nat) (r : outcome cresult) (k : tclient) : option tclient :=
  if is_done d k then None
  else Some (mktc (k_seq k) (k_next k) (k_reqs k) (k_running k) (k_open k) (k_wbuf k)
               (k_made k) (k_done k ++ [(d, r)]) (k_cancelled k)).

Definition with_reqs (l : list (Z * nat)) (k : tclient) : tclient :=
  mktc (k_seq k) (k_next k) l (k_running k) (k_open k) (k_wbuf k) (k_made k) (k_done k)
    (k_cancelled k).

(** The coroutine ends, by returning or by an exception nobody waits for. *)
Definition ended (k : tclient) : tclient :=
  mktc (k_seq k) (k_next k) (k_reqs k) false (k_open k) (k_wbuf k) (k_made k) (k_done k)
    (k_cancelled k).

Definition record_call (r : made) (k : tclient) : tclient :=
  mktc (k_seq k) (k_next k) (k_reqs k) (k_running k) (k_open k) (k_wbuf k)
    (k_made k ++ [r]) (k_done k) (k_cancelled k).

Definition with_wbuf (b : list byte) (k : tclient) : tclient :=
  mktc (k_seq k) (k_next k) (k_reqs k) (k_running k) (k_open k) b (k_made k) (k_done k)
    (k_cancelled k).

Definition stream_closed (k : tclient) : tclient :=
  mktc (k_seq k) (k_next k) (k_reqs k) (k_running k) false (k_wbuf k) (k_made k) (k_done k)
    (k_cancelled k).

(** [for future in self._reqs.values(): future.set_exception(e)]
    (t_py_generator.cc 1512-1514); [None]: a set_exception raised, with the
    client as it was then. *)
Fixpoint fail_all (l : list (Z * nat)) (e : exn) (k : tclient) : bool * tclient :=
  match l with
  | [] => (true, k)
  | (_, d) :: r =>
      match settle d (Raise e) k with
      | Some k' => fail_all r e k'
      | None => (false, k)
      end
  end.

(** readFrame raised TTransportException (t_py_generator.cc 1511-1516). *)
Definition lost (k : tclient) : tclient :=
  let k0 := stream_closed k in
  if k_running k0 then
    match fail_all (k_reqs k0) (ETransport TT_END_OF_FILE) k0 with
    | (true, k') => ended (with_reqs [] k')
    | (false, k') => ended k'
    end
  else k0.

Section System.
Context {X H : Type}.
Variable P : proto X.
Variable env : schema.
Variable handler : list Z -> list (option value) -> H -> hres * H.
Variable ms : list method.
(** A new protocol object, as both factories make. *)
Variable x0 : X.

(** send_<fn> up to the flush (t_py_generator.cc 1639-1662, Tornado). *)
Definition twrite_call (m : method) (args : list (option value)) (q : Z) : M X unit :=
  writeMessageBegin P (m_name m) (if m_oneway m then ONEWAY else CALL) q ;;;
  write_struct P env (m_args m) (VStruct (m_args m) args) ;;;
  writeMessageEnd P.

(** <fn>(args) (t_py_generator.cc 1553-1557, 1580-1586, 1639-1664): the new
    client and the bytes handed to stream.write.  A closed stream refuses
    them after __wbuf was reset. *)
Definition tcall (m : method) (args : list (option value)) (k : tclient)
  : tclient * list byte :=
  let q := k_seq k + 1 in
  let d := k_next k in
  let k1 := mktc q (if m_oneway m then d else S d)
              (if m_oneway m then k_reqs k else put q d (k_reqs k))
              (k_running k) (k_open k) (k_wbuf k) (k_made k) (k_done k) (k_cancelled k) in
  match twrite_call m args q (mkst x0 [] (k_wbuf k) 0) with
  | (Ok _, s) =>
      match tframe (out s) with
      | Some b =>
          if k_open k
          then (record_call (Ok (if m_oneway m then None else Some d)) (with_wbuf [] k1), b)
          else (record_call (Raise (ETransport TT_END_OF_FILE)) (with_wbuf [] k1), [])
      | None => (record_call (Raise EStructError) (with_wbuf (out s) k1), [])
      end
  | (Raise e, s) => (record_call (Raise e) (with_wbuf (out s) k1), [])
  | (Diverge, s) => (record_call Diverge (with_wbuf (out s) k1), [])
  end.

(** recv_<fn> (t_py_generator.cc 1687-1752, Tornado). *)
Definition trecv (F : nat) (m : method) (mtype : Z) : M X cresult :=
  if mtype =? EXCEPTION then
    x <- read_struct P app_env DFUEL F O ;;
    readMessageEnd P ;;;
    ret (match attrs x with
         | [msg; type] => CApp type msg
         | _ => CApp None None
         end)
  else
    r <- read_struct P env DFUEL F (m_result m) ;;
    readMessageEnd P ;;;
    ret (result_of m r).

(** The rest of _start_receiving's loop body (t_py_generator.cc 1517-1530). *)
Definition on_frame (frame : list byte) (k : tclient) : tclient :=
  match readMessageBegin P (mkst x0 frame [] 0) with
  | (Ok (fname, mtype, q), s) =>
      match lookup fname (filter (fun m => negb (m_oneway m)) ms) with
      | None => ended k
      | Some m =>
          match pop q (k_reqs k) with
          | None => k
          | Some (d, l) =>
              let k1 := with_reqs l k in
              match settle d (fst (trecv (length frame) m mtype s)) k1 with
              | Some k2 => k2
              | None => ended k1
              end
          end
      end
  | _ => ended k
  end.

(** One turn of handle_stream's loop (TTornado.py 188-201) with the generated
    processor (t_py_generator.cc 2018-2063, 2088-2109, 2214-2270): a fresh
    iprot over the frame, the connection's oprot.  The handler's coroutine is
    taken to run at once.  An exception ends the loop and closes the stream. *)
Definition tserve (y : tsys X H) : tsys X H :=
  if t_serving y then
    match take_frame (t_up_in y) with
    | None => y
    | Some (frame, rest) =>
        match process P env handler (length frame) ms
                (mkss (mkst x0 frame [] 0) (t_out y) [] (t_h y)) with
        | (Ok _, s) =>
            match tframes (s_sent s) with
            | Some b => mkts (t_cl y) (t_up y) rest (t_down y ++ b) (t_down_in y)
                          (s_out s) (s_h s) true
            | None => mkts (t_cl y) (t_up y) rest (t_down y) (t_down_in y)
                        (s_out s) (s_h s) false
            end
        | (_, s) => mkts (t_cl y) (t_up y) rest (t_down y) (t_down_in y)
                      (s_out s) (s_h s) false
        end
    end
  else y.

Definition treceive (y : tsys X H) : tsys X H :=
  if k_running (t_cl y) then
    match take_frame (t_down_in y) with
    | None => y
    | Some (frame, rest) =>
        mkts (on_frame frame (t_cl y)) (t_up y) (t_up_in y) (t_down y) rest
          (t_out y) (t_h y) (t_serving y)
    end
  else y.

Definition set_cl (k : tclient) (y : tsys X H) : tsys X H :=
  mkts k (t_up y) (t_up_in y) (t_down y) (t_down_in y) (t_out y) (t_h y) (t_serving y).

Definition tstep (e : tevent) (y : tsys X H) : tsys X H :=
  match e with
  | TCall m args =>
      let '(k, b) := tcall m args (t_cl y) in
      mkts k (t_up y ++ b) (t_up_in y) (t_down y) (t_down_in y) (t_out y) (t_h y)
        (t_serving y)
  | TUp n =>
      mkts (t_cl y) (skipn n (t_up y)) (t_up_in y ++ firstn n (t_up y)) (t_down y)
        (t_down_in y) (t_out y) (t_h y) (t_serving y)
  | TServe => tserve y
  | TDown n =>
      mkts (t_cl y) (t_up y) (t_up_in y) (skipn n (t_down y))
        (t_down_in y ++ firstn n (t_down y)) (t_out y) (t_h y) (t_serving y)
  | TReceive => treceive y
  | TInject b =>
      mkts (t_cl y) (t_up y) (t_up_in y) (t_down y) (t_down_in y ++ b) (t_out y) (t_h y)
        (t_serving y)
  | TLost => set_cl (lost (t_cl y)) y
  | TCancel d =>
      if is_done d (t_cl y) || negb (d <? k_next (t_cl y))%nat then y
      else let k := t_cl y in
           set_cl (mktc (k_seq k) (k_next k) (k_reqs k) (k_running k) (k_open k) (k_wbuf k)
                     (k_made k) (k_done k) (k_cancelled k ++ [d])) y
  end.

Definition trun (es : list tevent) (y : tsys X H) : tsys X H :=
  fold_left (fun y e => tstep e y) es y.

(** A client just made, a server that has just accepted. *)
Definition tstart (h : H) : tsys X H :=
  mkts tc_start [] [] [] [] (mkst x0 [] [] 0) h true.
End System.
