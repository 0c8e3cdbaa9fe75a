(** THeaderProtocol (lib/py/src/protocol/THeaderProtocol.py), and generated
    clients and processors on it.  No proofs here. *)
From Coq Require Import String.
From Coq Require Import ZArith List Bool.
From Coq Require Import Init.Byte.
From Verif Require Import Base Bytes Proto Binary Compact Transport Rpc.
From Verif Require Header.
Import ListNotations.
Open Scope Z_scope.
Open Scope list_scope.

(** The connection under the THeaderTransport: what has arrived and has not been
    read, and what has been sent.  It gives what is asked for as far as it has it
    (chunks are dealt with in Header.v and Transport.v). *)
Definition wire : Type := (list byte * list byte)%type.
Definition flat : transport wire :=
  mktransport wire
    (fun sz w => let (a, b) := bytesio_read sz (fst w) in (Ok a, (b, snd w)))
    (fun b w => (Ok tt, (fst w, snd w ++ b)))
    (ret tt).

(** [self._protocol]: PROTOCOLS_BY_ID, 27-30.  The accelerated classes use the
    Python methods of their base classes where the C module is missing, and agree
    with them where it is there (C33, C54). *)
Inductive sub := SubB | SubC (x : cst).

(** The attributes: trans, _protocol and _recursion_depth. *)
Record hp := mkhp { p_trans : Header.hdr wire; p_sub : sub; p_depth : Z }.

(** What the sub-protocol can read: the rest of the frame, or for an unframed
    client everything that has arrived (THeaderTransport.read, 168-183).

    For a framed client THeaderTransport.read would go on with the next frame
    after the end of this one; here the sub-protocol then sees the end of its
    input (EOFError). *)
Definition ahead (h : Header.hdr wire) : list byte :=
  Header.h_rbuf h
  ++ if Header.is_unframed (Header.h_client h) then fst (Header.h_trans h) else [].

Definition put_back (h : Header.hdr wire) (rest : list byte) : Header.hdr wire :=
  if Header.is_unframed (Header.h_client h) then
    let w := Header.h_trans h in
    let n := (length rest - length (fst w))%nat in
    Header.with_rbuf (Header.with_trans h (skipn n rest, snd w)) (firstn n rest)
  else Header.with_rbuf h rest.

(** Every method but readMessageBegin and writeMessageBegin is
    [return self._protocol.<method>(...)] (80-146, 169-226). *)
Definition on_sub {A} (m : forall X, proto X -> M X A) : SM hp A :=
  fun p =>
    let h := p_trans p in
    match p_sub p with
    | SubB =>
        match m unit (binary bdefault) (mkst tt (ahead h) (Header.h_wbuf h) (p_depth p)) with
        | (r, s) => (r, mkhp (Header.with_wbuf (put_back h (inp s)) (out s)) SubB (depth s))
        end
    | SubC x =>
        match m cst (compact cdefault) (mkst x (ahead h) (Header.h_wbuf h) (p_depth p)) with
        | (r, s) =>
            (r, mkhp (Header.with_wbuf (put_back h (inp s)) (out s)) (SubC (px s)) (depth s))
        end
    end.

Definition on_trans {A} (m : SM (Header.hdr wire) A) : SM hp A :=
  fun p => match m (p_trans p) with (r, h) => (r, mkhp h (p_sub p) (p_depth p)) end.

(** _set_protocol, 145-157: a new protocol object; TApplicationException with
    TProtocolException's number for an unknown id. *)
Definition set_protocol : SM hp unit :=
  fun p =>
    match Header.protocol_id (p_trans p) with
    | (Ok id, h) =>
        if id =? Header.SP_BINARY then (Ok tt, mkhp h SubB (p_depth p))
        else if id =? Header.SP_COMPACT then (Ok tt, mkhp h (SubC c_init) (p_depth p))
        else (Raise (EApplication TP_INVALID_PROTOCOL), mkhp h (p_sub p) (p_depth p))
    | (Raise e, h) => (Raise e, mkhp h (p_sub p) (p_depth p))
    | (Diverge, h) => (Diverge, mkhp h (p_sub p) (p_depth p))
    end.

(** __init__, 57-66, on a transport that is not a THeaderTransport. *)
Definition hp_new (w : wire) (default_protocol : Z) : outcome hp :=
  match set_protocol (mkhp (Header.hdr_init w default_protocol) SubB 0) with
  | (Ok _, p) => Ok p
  | (Raise e, _) => Raise e
  | (Diverge, _) => Diverge
  end.

(** [self._protocol.writeMessageBegin(b"", TMessageType.EXCEPTION, 0)] (164): the
    name is bytes, and [bytes(b"", 'utf-8')] is a TypeError, raised after the
    first part of the header has been written (TBinaryProtocol.py 52-60,
    TCompactProtocol.py 163-176). *)
Definition begin_exception : SM hp unit :=
  fun p =>
    let h := p_trans p in
    match p_sub p with
    | SubB => (Raise ETypeError,
               mkhp (Header.with_wbuf h (Header.h_wbuf h ++ [x80; x01; x00; x03]))
                    SubB (p_depth p))
    | SubC x =>
        if cstate_eqb (state x) CLEAR then
          (Raise ETypeError,
           mkhp (Header.with_wbuf h (Header.h_wbuf h ++ [x82; x61; x00])) (SubC x) (p_depth p))
        else (Raise EAssertion, p)
    end.

Section Protocol.
Variable compress : list byte -> list byte.
Variable decompress : list byte -> Z -> option (list byte * list byte).
Variable allowed : list Z.

(** readMessageBegin, 159-169.  What follows [begin_exception] in the handler is
    never reached. *)
Definition hp_readMessageBegin : SM hp (list Z * Z * Z) :=
  fun p =>
    match (on_trans (Header.readFrame flat decompress allowed 0) ;;; set_protocol) p with
    | (Ok _, p') => on_sub (fun X P => readMessageBegin P) p'
    | (Raise (EApplication _), p') =>
        match begin_exception p' with
        | (Ok _, p'') => on_sub (fun X P => readMessageBegin P) p''
        | (Raise e, p'') => (Raise e, p'')
        | (Diverge, p'') => (Diverge, p'')
        end
    | (Raise e, p') => (Raise e, p')
    | (Diverge, p') => (Diverge, p')
    end.

(** writeMessageBegin, 80-82 *)
Definition hp_writeMessageBegin (name : list Z) (ttype seqid : Z) : SM hp unit :=
  on_trans (fun h => (Ok tt, Header.with_seq h seqid)) ;;;
  on_sub (fun X P => writeMessageBegin P name ttype seqid).

(** * Generated code on it: Rpc.v, with one protocol object for both directions
    (TServer.py 82-85, 118-121, 188-191) *)

Section Processor.
Context {H : Type}.
Variable env : schema.
Variable handler : list Z -> list (option value) -> H -> hres * H.

Definition both {A} (m : SM hp A) : SM (hp * H) A :=
  fun s => match m (fst s) with (r, p) => (r, (p, snd s)) end.

Definition hp_call_handler (name : list Z) (args : list (option value)) : SM (hp * H) hres :=
  fun s => match handler name args (snd s) with (r, h) => (Ok r, (fst s, h)) end.

Definition hp_message (name : list Z) (mtype seqid : Z) (e : schema) (n : nat) (v : value)
  : SM hp unit :=
  hp_writeMessageBegin name mtype seqid ;;;
  on_sub (fun X P => write_struct P e n v) ;;;
  on_sub (fun X P => writeMessageEnd P) ;;;
  on_trans (Header.flush flat compress).

(** Fuel for the readers: what there is to read. *)
Definition left_to_read : SM hp nat := fun p => (Ok (length (ahead (p_trans p))), p).

Definition hp_process_function (F : nat) (m : method) (seqid : Z) : SM (hp * H) unit :=
  args <- both (on_sub (fun X P => read_struct P env DFUEL F (m_args m))) ;;
  both (on_sub (fun X P => readMessageEnd P)) ;;;
  r <- hp_call_handler (m_name m) (attrs args) ;;
  match r with
  | HTransport t => raise (ETransport t)
  | _ =>
      if m_oneway m then ret tt
      else match reply_for env m r with
           | Some (mtype, e, n, v) => both (hp_message (m_name m) mtype seqid e n v)
           | None => ret tt
           end
  end.

Definition hp_process (ms : list method) : SM (hp * H) unit :=
  '(name, _, seqid) <- both hp_readMessageBegin ;;
  F <- both left_to_read ;;
  match lookup name ms with
  | None =>
      both (on_sub (fun X P => skip P F SKIP_DEPTH T_STRUCT)) ;;;
      both (on_sub (fun X P => readMessageEnd P)) ;;;
      both (hp_message name EXCEPTION seqid app_env O
        (app_exn TA_UNKNOWN_METHOD (Some (lit "Unknown function " ++ name))))
  | Some m => hp_process_function F m seqid
  end.

(** The server's loop over one connection for [k] messages; it ends at the first
    exception. *)
Fixpoint hp_serve (ms : list method) (k : nat) : SM (hp * H) unit :=
  match k with
  | O => ret tt
  | S k' => hp_process ms ;;; hp_serve ms k'
  end.

(** The generated client: send_<fn> and recv_<fn>. *)
Definition hp_send (m : method) (args : list (option value)) : SM hp unit :=
  hp_message (m_name m) (if m_oneway m then ONEWAY else CALL) 0 env (m_args m)
    (VStruct (m_args m) args).

Definition hp_recv (m : method) : SM hp cresult :=
  '(_, mtype, _) <- hp_readMessageBegin ;;
  F <- left_to_read ;;
  if mtype =? EXCEPTION then
    x <- on_sub (fun X P => read_struct P app_env DFUEL F O) ;;
    on_sub (fun X P => readMessageEnd P) ;;;
    ret (match attrs x with
         | [msg; type] => CApp type msg
         | _ => CApp None None
         end)
  else
    r <- on_sub (fun X P => read_struct P env DFUEL F (m_result m)) ;;
    on_sub (fun X P => readMessageEnd P) ;;;
    ret (result_of m r).

(** * A client and a server *)

(** What the one has sent arrives at the other. *)
Definition deliver (from to : hp) : hp * hp :=
  let hf := p_trans from in
  let ht := p_trans to in
  (mkhp (Header.with_trans hf (fst (Header.h_trans hf), [])) (p_sub from) (p_depth from),
   mkhp (Header.with_trans ht (fst (Header.h_trans ht) ++ snd (Header.h_trans hf),
                               snd (Header.h_trans ht))) (p_sub to) (p_depth to)).

(** A call with info headers set for it: the outcome, and the headers the server
    has (get_headers, 68-69) when it has dealt with it. *)
Definition hp_call (ms : list method) (hs : list (list byte * list byte)) (m : method)
    (args : list (option value)) (y : hp * hp * H)
  : outcome cresult * list (list byte * list byte) * (hp * hp * H) :=
  let '(c, s, h) := y in
  let c0 := mkhp (Header.with_wheaders (p_trans c) hs) (p_sub c) (p_depth c) in
  let (r, c1) := hp_send m args c0 in
  let (c2, s1) := deliver c1 s in
  let '(_, (s2, h')) := hp_process ms (s1, h) in
  let seen := Header.h_rheaders (p_trans s2) in
  let (s3, c3) := deliver s2 c2 in
  match r with
  | Raise e => (Raise e, seen, (c3, s3, h'))
  | Diverge => (Diverge, seen, (c3, s3, h'))
  | Ok _ =>
      if m_oneway m then (Ok (CReturn None), seen, (c3, s3, h'))
      else let (o, c4) := hp_recv m c3 in (o, seen, (c4, s3, h'))
  end.

Fixpoint hp_calls (ms : list method)
    (l : list (list (list byte * list byte) * method * list (option value))) (y : hp * hp * H)
  : list (outcome cresult * list (list byte * list byte)) * (hp * hp * H) :=
  match l with
  | [] => ([], y)
  | (hs, m, args) :: l' =>
      let '(o, seen, y1) := hp_call ms hs m args y in
      let (os, y2) := hp_calls ms l' y1 in ((o, seen) :: os, y2)
  end.
End Processor.
End Protocol.
