(** THttpClient (lib/py/src/transport/THttpClient.py), and generated clients
    calling a THttpServer through it.  No proofs here.

    http.client is the environment: what becomes of a request is an argument.
    Parsing of URLs (urlparse) and the proxy settings (getproxies, proxy_bypass)
    are library calls; their results make up [conf]. *)
From Coq Require Import String.
From Coq Require Import ZArith List Bool.
From Coq Require Import Init.Byte.
From Verif Require Import Base Bytes Utf8 Proto JsonText Rpc HttpServer.
Import ListNotations.
Open Scope Z_scope.
Open Scope list_scope.

Definition header : Type := (list Z * list Z)%type.

(** What the constructor stores (37-96).  [proxied]: the proxy's host, port and
    the Proxy-Authorization value, if a proxy is used; [origin] is then realhost
    and realport.  [agent] is the User-Agent value made in flush (169-172), which
    depends on sys.argv only. *)
Record conf := mkconf {
  https : bool;
  origin : list Z * Z;
  path : list Z;
  proxied : option ((list Z * Z) * option (list Z));
  agent : list Z }.

(** What http.client makes of the response. *)
Record response := mkresp { r_status : Z; r_headers : list header; r_body : list byte }.

(** What becomes of a request: an exception before it has been sent whole
    (endheaders connects and sends the headers, send the body), an exception in
    getresponse, or a response. *)
Inductive fate :=
| Unsent (e : exn)
| Unanswered (e : exn)
| Answered (r : response).

(** Connections are numbered.  [Opened n to tunnel]: an HTTPConnection object to
    [to], with set_tunnel if [tunnel] is given: http.client then sends a CONNECT
    with that Proxy-Authorization value, and everything afterwards reaches the
    tunnel's end.  [Posted n target headers body]: a request sent whole. *)
Inductive hcev :=
| Opened (n : nat) (to : list Z * Z) (tunnel : option ((list Z * Z) * option (list Z)))
| Closed (n : nat)
| Posted (n : nat) (target : list Z) (headers : list header) (body : list byte).

(** Attributes: __wbuf, __http (its number), __http_response (what is left of its
    body), code, headers, __custom_headers; [c_next] numbers connections and
    [c_log] is the history. *)
Record hclient := mkhc {
  c_wbuf : list byte;
  c_conn : option nat;
  c_resp : option (list byte);
  c_code : option Z;
  c_hdrs : option (list header);
  c_custom : option (list header);
  c_next : nat;
  c_log : list hcev }.

Definition hc_new : hclient := mkhc [] None None None None None O [].

Section Client.
Variable cf : conf.

(** open (110-120).  An HTTPConnection connects when the first request is made.
    set_tunnel is called for both schemes. *)
Definition hc_open (s : hclient) : hclient :=
  let to := match proxied cf with Some (p, _) => p | None => origin cf end in
  let tunnel := match proxied cf with
                | Some (_, auth) => Some (origin cf, auth)
                | None => None
                end in
  mkhc (c_wbuf s) (Some (c_next s)) (c_resp s) (c_code s) (c_hdrs s) (c_custom s)
       (S (c_next s)) (c_log s ++ [Opened (c_next s) to tunnel]).

(** close (122-125); [None.close()] is an AttributeError. *)
Definition hc_close : SM hclient unit :=
  fun s =>
    match c_conn s with
    | None => (Raise EAttributeError, s)
    | Some n =>
        (Ok tt, mkhc (c_wbuf s) None None (c_code s) (c_hdrs s) (c_custom s)
                     (c_next s) (c_log s ++ [Closed n]))
    end.

(** isOpen (127-128) *)
Definition hc_isOpen (s : hclient) : bool :=
  match c_conn s with Some _ => true | None => false end.

(** setCustomHeaders (136-137) *)
Definition hc_custom (h : option (list header)) (s : hclient) : hclient :=
  mkhc (c_wbuf s) (c_conn s) (c_resp s) (c_code s) (c_hdrs s) h (c_next s) (c_log s).

(** read (139-140): HTTPResponse.read, which may give less than asked for
    ([short]: how much at most) but something if there is something. *)
Definition hc_read (short : nat) (sz : Z) : SM hclient (list byte) :=
  fun s =>
    match c_resp s with
    | None => (Raise EAttributeError, s)
    | Some b =>
        let n := if sz <? 0 then length b else Nat.min (Z.to_nat sz) (S short) in
        (Ok (firstn n b),
         mkhc (c_wbuf s) (c_conn s) (Some (skipn n b)) (c_code s) (c_hdrs s) (c_custom s)
              (c_next s) (c_log s))
    end.

(** write (142-143) *)
Definition hc_write (b : list byte) (s : hclient) : hclient :=
  mkhc (c_wbuf s ++ b) (c_conn s) (c_resp s) (c_code s) (c_hdrs s) (c_custom s)
       (c_next s) (c_log s).

(** ASCII lower case: email.message looks headers up so. *)
Definition lower (c : Z) : Z := if (65 <=? c) && (c <=? 90) then c + 32 else c.
Definition same_name (a b : list Z) : bool := name_eqb (map lower a) (map lower b).

(** [self.headers['Set-Cookie']]: the first one. *)
Definition cookie (h : option (list header)) : option (list Z) :=
  match h with
  | None => None
  | Some l => option_map snd (find (fun x => same_name (fst x) (lit "Set-Cookie")) l)
  end.

(** The target of the request (155-160). *)
Definition target : list Z :=
  match proxied cf with
  | Some _ =>
      if https cf then path cf
      else lit "http://" ++ fst (origin cf) ++ lit ":" ++ int_text (snd (origin cf))
           ++ path cf
  | None => path cf
  end.

(** The headers (163-183), in order; http.client puts Host and Accept-Encoding
    before them. *)
Definition headers_for (s : hclient) (data : list byte) : list header :=
  [(lit "Content-Type", lit "application/x-thrift");
   (lit "Content-Length", int_text (Z.of_nat (length data)))]
  ++ match proxied cf with
     | Some (_, Some auth) => if https cf then [] else [(lit "Proxy-Authorization", auth)]
     | _ => []
     end
  ++ match c_custom s with
     | Some l => if existsb (fun x => name_eqb (fst x) (lit "User-Agent")) l then []
                 else [(lit "User-Agent", agent cf)]
     | None => [(lit "User-Agent", agent cf)]
     end
  ++ match c_custom s with Some l => l | None => [] end
  ++ match cookie (c_hdrs s) with Some v => [(lit "Cookie", v)] | None => [] end.

(** putheader raises ValueError for a header it does not like. *)
Variable legal : header -> bool.

(** flush (145-194) *)
Definition hc_flush (f : fate) : SM hclient unit :=
  fun s =>
    let s1 := if hc_isOpen s then snd (hc_close s) else s in
    let s2 := hc_open s1 in
    let data := c_wbuf s2 in
    let s3 := mkhc [] (c_conn s2) (c_resp s2) (c_code s2) (c_hdrs s2) (c_custom s2)
                   (c_next s2) (c_log s2) in
    let hs := headers_for s3 data in
    if forallb legal hs then
      let posted := c_log s3 ++ [Posted (c_next s1) target hs data] in
      match f with
      | Unsent e => (Raise e, s3)
      | Unanswered e =>
          (Raise e, mkhc [] (c_conn s3) (c_resp s3) (c_code s3) (c_hdrs s3) (c_custom s3)
                         (c_next s3) posted)
      | Answered r =>
          (Ok tt, mkhc [] (c_conn s3) (Some (r_body r)) (Some (r_status r))
                       (Some (r_headers r)) (c_custom s3) (c_next s3) posted)
      end
    else (Raise EValueError, s3).

(** * Histories *)

Inductive hop :=
| HOpen
| HClose
| HWrite (b : list byte)
| HFlush (f : fate)
| HRead (short : nat) (sz : Z)
| HCustom (h : option (list header)).

Definition hstep (o : hop) : SM hclient (list byte) :=
  match o with
  | HOpen => fun s => (Ok [], hc_open s)
  | HClose => hc_close ;;; ret []
  | HWrite b => fun s => (Ok [], hc_write b s)
  | HFlush f => hc_flush f ;;; ret []
  | HRead k sz => hc_read k sz
  | HCustom h => fun s => (Ok [], hc_custom h s)
  end.

(** An exception does not stop the program. *)
Fixpoint hrun (l : list hop) (s : hclient) : list (outcome (list byte)) * hclient :=
  match l with
  | [] => ([], s)
  | o :: r =>
      match hstep o s with
      | (x, s') => let (xs, s'') := hrun r s' in (x :: xs, s'')
      end
  end.
End Client.

(** * A generated client calling a THttpServer *)

(** What the network does to one call: the request does not arrive, the response
    does not arrive, or all is well. *)
Inductive net :=
| NetOk
| NetLostRequest (e : exn)
| NetLostReply (e : exn).

Section Calls.
Context {X H : Type}.
Variable P : proto X.
Variable env : schema.
Variable handler : list Z -> list (option value) -> H -> hres * H.
Variable ms : list method.
Variable x0 : X.                     (* a new protocol object at the server *)
Variable cf : conf.
Variable legal : header -> bool.
(** What http.client raises when the server closes without answering
    (RemoteDisconnected, an OSError). *)
Variable hung_up : exn.

Fixpoint first_response (t : list hev) : option (option Z * list byte) :=
  match t with
  | [] => None
  | Response n b :: _ => Some (n, b)
  | _ :: r => first_response r
  end.

(** THttpServer's answer as the client sees it: send_response(200), Content-Length
    unless one-way, Content-Type (THttpServer.py 95-102, 111-115); http.server puts
    Server and Date before them. *)
Definition served (b : list byte) (h : H) : fate * H :=
  match do_post (gen_processor P env handler (length b) ms) x0
          (mkreq (Some (Z.of_nat (length b))) b) h with
  | (t, _, h') =>
      (match first_response t with
       | Some (n, b') =>
           Answered (mkresp 200
             (match n with Some n => [(lit "Content-Length", int_text n)] | None => [] end
              ++ [(lit "Content-Type", lit "application/x-thrift")])
             b')
       | None => Unanswered hung_up
       end, h')
  end.

Definition transfer (n : net) (b : list byte) (h : H) : fate * H :=
  match n with
  | NetOk => served b h
  | NetLostRequest e => (Unsent e, h)
  | NetLostReply e => (Unanswered e, snd (served b h))
  end.

(** The client's protocol object keeps its attributes ([px], [depth]) between
    calls; it reads and writes the THttpClient. *)
Record hsys := mkhsys { y_px : X; y_depth : Z; y_http : hclient; y_h : H }.

Definition unread (c : hclient) : list byte :=
  match c_resp c with Some b => b | None => [] end.

Definition set_io (c : hclient) (i o : list byte) : hclient :=
  mkhc o (c_conn c) (match c_resp c with Some _ => Some i | None => None end)
       (c_code c) (c_hdrs c) (c_custom c) (c_next c) (c_log c).

(** Protocol code run on the transport.  Writers do not read, and recv_<fn> only
    runs after a flush that got a response, so that [c_resp] is there. *)
Definition on_http {A} (m : M X A) : SM hsys A :=
  fun y =>
    match m (mkst (y_px y) (unread (y_http y)) (c_wbuf (y_http y)) (y_depth y)) with
    | (r, s) => (r, mkhsys (px s) (depth s) (set_io (y_http y) (inp s) (out s)) (y_h y))
    end.

Definition http_flush (n : net) : SM hsys unit :=
  fun y =>
    let (f, h') := transfer n (c_wbuf (y_http y)) (y_h y) in
    match hc_flush cf legal f (y_http y) with
    | (r, c) => (r, mkhsys (y_px y) (y_depth y) c h')
    end.

(** send_<fn> and recv_<fn>, as in Rpc.v, over this transport. *)
Definition http_send (n : net) (m : method) (args : list (option value)) : SM hsys unit :=
  on_http (writeMessageBegin P (m_name m) (if m_oneway m then ONEWAY else CALL) 0) ;;;
  on_http (write_struct P env (m_args m) (VStruct (m_args m) args)) ;;;
  on_http (writeMessageEnd P) ;;;
  http_flush n.

Definition http_recv (m : method) : SM hsys cresult :=
  fun y =>
    let c := y_http y in
    match recv P env (length (unread c)) m
            (mkcs (mkst (y_px y) (unread c) (c_wbuf c) (y_depth y)) []) with
    | (r, s) => (r, mkhsys (px (cl s)) (depth (cl s)) (set_io c (inp (cl s)) (out (cl s)))
                           (y_h y))
    end.

Definition http_call (n : net) (m : method) (args : list (option value)) : SM hsys cresult :=
  http_send n m args ;;;
  if m_oneway m then ret (CReturn None) else http_recv m.

(** A client program; a call that raised does not stop it. *)
Fixpoint http_calls (l : list (net * method * list (option value))) (y : hsys)
  : list (outcome cresult) * hsys :=
  match l with
  | [] => ([], y)
  | (n, m, args) :: r =>
      match http_call n m args y with
      | (o, y') => let (os, y'') := http_calls r y' in (o :: os, y'')
      end
  end.
End Calls.
