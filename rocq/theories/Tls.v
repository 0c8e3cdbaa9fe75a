(** TSSLSocket and TSSLServerSocket (lib/py/src/transport/TSSLSocket.py,
    sslcompat.py) on Python 3.  No proofs here.

    The ssl module is described by its documented rules: PROTOCOL_TLS_CLIENT
    contexts start with CERT_REQUIRED and check_hostname, all others with
    neither; verify_mode cannot be set to CERT_NONE while check_hostname is on
    (ValueError); wrapping with check_hostname and no server name is a
    ValueError; a client context cannot serve, nor a server context connect
    (SSLError); a handshake completes only if the certificate and, with
    check_hostname, the name pass.  SSLError is an OSError.  What the peer
    shows is an argument. *)
From Coq Require Import ZArith List Bool.
From Coq Require Import Init.Byte.
From Verif Require Import Base.
Import ListNotations.
Open Scope Z_scope.

Inductive vmode := CERT_NONE | CERT_OPTIONAL | CERT_REQUIRED.
(** [P_TLS] stands for PROTOCOL_TLS (= PROTOCOL_SSLv23) and the fixed-version
    constants. *)
Inductive sproto := P_TLS | P_TLS_CLIENT | P_TLS_SERVER.

Record ctx := mkctx { x_proto : sproto; x_mode : vmode; x_check : bool }.

(** [ssl.SSLContext(protocol)] *)
Definition new_ctx (p : sproto) : ctx :=
  match p with
  | P_TLS_CLIENT => mkctx p CERT_REQUIRED true
  | _ => mkctx p CERT_NONE false
  end.

(** Text is a list of code points. *)
Definition text := list Z.

(** The dictionary of [getpeercert()]: ['subject'] is a sequence of fields; a
    field that is a tuple has pairs, each a sequence of strings. *)
Inductive rdn := RTuple (pairs : list (list text)) | ROther.
Record cert := mkcert { subject : option (list rdn) }.

(** What the other end does in a handshake: whether it completes it at all, the
    certificate it shows, whether that is signed by a loaded authority, and
    whether it is for the name asked. *)
Record peer := mkpeer {
  p_answers : bool; p_cert : option cert; p_chain : bool; p_name : bool }.

(** Does the handshake complete?  A client verifies in the same way for
    CERT_OPTIONAL as for CERT_REQUIRED; a server lets clients without a
    certificate in. *)
Definition handshake (c : ctx) (server : bool) (p : peer) : bool :=
  p_answers p
  && match x_mode c, p_cert p with
     | CERT_NONE, _ => true
     | CERT_OPTIONAL, None => server
     | CERT_REQUIRED, None => false
     | _, Some _ => p_chain p
     end
  && (negb (x_check c) || p_name p).

(** [getpeercert()] after the handshake: an empty dictionary when nothing was
    verified. *)
Definition getpeercert (c : ctx) (p : peer) : option cert :=
  match x_mode c, p_cert p with
  | CERT_NONE, Some _ => Some (mkcert None)
  | _, r => r
  end.

(** * Construction *)

(** The keyword arguments; [Some true] for a file that is readable. *)
Record args := mkargs {
  g_context : option ctx; g_validate : option bool; g_reqs : option vmode;
  g_version : option sproto; g_ca : option bool; g_cert : option bool;
  g_key : bool; g_ciphers : bool }.

Definition no_args : args := mkargs None None None None None None false false.

(** The attributes TSSLBase.__init__ sets, 118-158. *)
Record base := mkbase {
  b_ctx : ctx; b_custom : bool; b_reqs : vmode; b_ca : bool; b_cert : bool; b_ciphers : bool }.

Definition verifies (c : ctx) : bool :=
  match x_mode c with CERT_NONE => false | _ => true end.

(** TSSLBase.__init__, 118-158, and the [certfile] setter, 164-170.  The
    context is still as created when [_should_verify] (69-74) is consulted:
    [cert_reqs] only reaches it in [_wrap_socket].  Positional arguments,
    unknown keywords and Python < 2.7.9 are left out. *)
Definition base_init (server : bool) (a : args) : outcome base :=
  match g_context a with
  | Some c =>
      match g_reqs a, g_version a, g_ca a, g_cert a, g_key a, g_ciphers a with
      | None, None, None, None, false, false => Ok (mkbase c true CERT_NONE false false false)
      | _, _, _, _, _, _ => Raise EValueError
      end
  | None =>
      let c := new_ctx (match g_version a with Some p => p | None => P_TLS_CLIENT end) in
      let reqs := match g_reqs a with Some m => m | None => CERT_REQUIRED end in
      match g_cert a, server with
      | None, true => Raise EValueError
      | Some false, _ => Raise EOSError
      | _, _ =>
          let b := mkbase c false reqs
            (match g_ca a with Some _ => true | None => false end)
            (match g_cert a with Some _ => true | None => false end) (g_ciphers a) in
          if verifies c then
            match g_ca a with
            | None => Raise EValueError
            | Some false => Raise EOSError
            | Some true => Ok b
            end
          else Ok b
      end
  end.

(** TSSLSocket.__init__, 217-266. *)
Definition client_init (a : args) : outcome base :=
  match g_validate a, g_reqs a with
  | Some _, Some _ => Raise ETypeError
  | Some v, None =>
      base_init false (mkargs (g_context a) None (Some (if v then CERT_REQUIRED else CERT_NONE))
        (g_version a) (g_ca a) (g_cert a) (g_key a) (g_ciphers a))
  | None, _ => base_init false a
  end.

(** TSSLServerSocket.__init__, 330-367; [default_cert]: whether cert.pem can be
    read.  The ipaddress module is in Python 3. *)
Definition server_init (default_cert : bool) (a : args) : outcome base :=
  match g_context a with
  | Some _ => base_init true a
  | None =>
      base_init true (mkargs None (g_validate a)
        (Some (match g_reqs a with Some m => m | None => CERT_NONE end))
        (g_version a) (g_ca a)
        (Some (match g_cert a with Some r => r | None => default_cert end))
        (g_key a) (g_ciphers a))
  end.

(** * _wrap_socket *)

(** Why wrapping fails: an OSError (SSLError included) or a ValueError. *)
Inductive kind := KOS | KValue.
Definition kind_exn (k : kind) : exn := match k with KOS => EOSError | KValue => EValueError end.

(** [verify_mode = m] *)
Definition set_mode (m : vmode) (c : ctx) : option ctx :=
  match m, x_check c with
  | CERT_NONE, true => None
  | _, _ => Some (mkctx (x_proto c) m (x_check c))
  end.

(** _wrap_socket, 172-187, up to the handshake.  [loads]: whether the
    certificate, cipher and authority files that are given load; [named]:
    whether there is a server name (never on a server).  Returns the base with
    the context as left. *)
Definition wrap (server named loads : bool) (b : base) : base * option kind :=
  let r :=
    if b_custom b then inl (b_ctx b)
    else match set_mode (b_reqs b) (b_ctx b) with
         | None => inr (b_ctx b, KValue)
         | Some c =>
             if (b_cert b || b_ciphers b || b_ca b) && negb loads then inr (c, KOS) else inl c
         end in
  match r with
  | inr (c, k) => (mkbase c (b_custom b) (b_reqs b) (b_ca b) (b_cert b) (b_ciphers b), Some k)
  | inl c =>
      let b' := mkbase c (b_custom b) (b_reqs b) (b_ca b) (b_cert b) (b_ciphers b) in
      if x_check c && (server || negb named) then (b', Some KValue)
      else match x_proto c, server with
           | P_TLS_CLIENT, true | P_TLS_SERVER, false => (b', Some KOS)
           | _, _ => (b', None)
           end
  end.

(** * The callbacks *)

Inductive verdict := Accepts | RaisesT (code : Z) | RaisesOther.
(** Called with the certificate and the name or address. *)
Definition callback := option cert -> text -> verdict.

(** sslcompat._optional_dependencies, 100-114, on Python 3.12 and later. *)
Definition match_always : callback := fun _ _ => Accepts.

(** Text equality. *)
Definition text_eqb (a b : text) : bool :=
  if list_eq_dec Z.eq_dec a b then true else false.

Definition commonName : text :=
  [99; 111; 109; 109; 111; 110; 78; 97; 109; 101].

(** legacy_validate_callback, sslcompat.py 29-64.  [field[0]] of an empty tuple
    is an IndexError, [in None] a TypeError. *)
Fixpoint legacy_fields (fields : list rdn) (host : text) : verdict :=
  match fields with
  | [] => RaisesT TT_UNKNOWN
  | ROther :: r => legacy_fields r host
  | RTuple [] :: _ => RaisesOther
  | RTuple (kv :: _) :: r =>
      match kv with
      | key :: value :: _ =>
          if text_eqb key commonName
          then if text_eqb value host then Accepts else RaisesT TT_UNKNOWN
          else legacy_fields r host
      | _ => legacy_fields r host
      end
  end.
Definition legacy : callback := fun c host =>
  match c with
  | None => RaisesOther
  | Some c => match subject c with
              | None => RaisesT TT_NOT_OPEN
              | Some fields => legacy_fields fields host
              end
  end.

(** * TSSLSocket *)

(** The socket object; [s_next] numbers the sockets made, [s_closed] those
    closed, [s_wire] what was sent on which, [s_peers] who is at the other end
    of each connected one. *)
Record sock := mksock {
  s_base : base; s_handle : option nat; s_valid : bool; s_next : nat;
  s_closed : list nat; s_wire : list (nat * list byte); s_peers : list (nat * peer) }.

Definition new_sock (b : base) : sock := mksock b None false 0 [] [] [].

(** One address: whether socket() works, whether the files load, and who
    answers if connecting works at all. *)
Record attempt := mkattempt { a_socket : bool; a_loads : bool; a_peer : option peer }.

Definition TT_ALREADY_OPEN := 2.

(** The loop of TSocket.open, TSocket.py 135-153, with TSSLSocket._do_open,
    289-297; connecting does the handshake.  Keep-alive and time-out options
    are left out. *)
Fixpoint connect (named : bool) (addrs : list attempt) (s : sock) : outcome unit * sock :=
  match addrs with
  | [] => (Raise (ETransport TT_NOT_OPEN), s)
  | a :: r =>
      if negb (a_socket a) then (Raise EOSError, s)
      else
        let n := s_next s in
        match wrap false named (a_loads a) (s_base s) with
        | (b, Some _) =>
            (Raise (ETransport TT_NOT_OPEN),
             mksock b (s_handle s) (s_valid s) (S n) (n :: s_closed s) (s_wire s) (s_peers s))
        | (b, None) =>
            let lost := mksock b (s_handle s) (s_valid s) (S n) (n :: s_closed s) (s_wire s)
                          (s_peers s) in
            match a_peer a with
            | None => connect named r lost
            | Some p =>
                if handshake (b_ctx b) false p
                then (Ok tt, mksock b (Some n) (s_valid s) (S n) (s_closed s) (s_wire s)
                               ((n, p) :: s_peers s))
                else connect named r lost
            end
        end
  end.

Fixpoint peer_of (n : nat) (l : list (nat * peer)) : option peer :=
  match l with
  | [] => None
  | (m, p) :: r => if Nat.eqb m n then Some p else peer_of n r
  end.

(** TSSLSocket.open, 299-309; [addrs = None] when the name does not resolve. *)
Definition tls_open (cb : callback) (host : option text) (addrs : option (list attempt))
  (s : sock) : outcome unit * sock :=
  match s_handle s, addrs with
  | Some _, _ => (Raise (ETransport TT_ALREADY_OPEN), s)
  | None, None => (Raise (ETransport TT_NOT_OPEN), s)
  | None, Some l =>
      match connect (match host with Some (_ :: _) => true | _ => false end) l s with
      | (Ok _, s') =>
          if verifies (b_ctx (s_base s')) then
            let shown := match s_handle s' with
                         | Some n => match peer_of n (s_peers s') with
                                     | Some p => getpeercert (b_ctx (s_base s')) p
                                     | None => None
                                     end
                         | None => None
                         end in
            match cb shown (match host with Some h => h | None => [] end) with
            | Accepts => (Ok tt, mksock (s_base s') (s_handle s') true (s_next s') (s_closed s')
                                   (s_wire s') (s_peers s'))
            | RaisesT code => (Raise (ETransport code), s')
            | RaisesOther => (Raise (ETransport TT_UNKNOWN), s')
            end
          else (Ok tt, s')
      | other => other
      end
  end.

(** TSSLSocket.close, 268-275, and TSocketBase.close, TSocket.py 47-50.  The
    time-out is set on the handle before anything is checked. *)
Definition tls_close (s : sock) : outcome unit * sock :=
  match s_handle s with
  | None => (Raise EAttributeError, s)
  | Some n => (Ok tt, mksock (s_base s) None (s_valid s) (s_next s) (n :: s_closed s)
                        (s_wire s) (s_peers s))
  end.

(** TSocket.write, TSocket.py 180-196, on a connection that takes everything
    (C20 has the rest). *)
Definition tls_write (bs : list byte) (s : sock) : outcome unit * sock :=
  match s_handle s with
  | None => (Raise (ETransport TT_NOT_OPEN), s)
  | Some n => (Ok tt, mksock (s_base s) (s_handle s) (s_valid s) (s_next s) (s_closed s)
                        (s_wire s ++ [(n, bs)]) (s_peers s))
  end.

Inductive op := DoOpen (addrs : option (list attempt)) | DoClose | DoWrite (bs : list byte).

Definition step (cb : callback) (host : option text) (o : op) (s : sock) : outcome unit * sock :=
  match o with
  | DoOpen addrs => tls_open cb host addrs s
  | DoClose => tls_close s
  | DoWrite bs => tls_write bs s
  end.

(** A program that goes on after exceptions. *)
Fixpoint history (cb : callback) (host : option text) (l : list op) (s : sock)
  : list (outcome unit) * sock :=
  match l with
  | [] => ([], s)
  | o :: r =>
      let '(x, s1) := step cb host o s in
      let '(xs, s2) := history cb host r s1 in (x :: xs, s2)
  end.

(** * TSSLServerSocket.accept, 385-416 *)

(** [None]: no transport. *)
Record accepted := mkacc {
  r_result : outcome (option bool);  (** [Some v]: a transport; [v]: is_valid was set *)
  r_base : base; r_plain_closed : bool; r_client_closed : bool }.

(** [addr]: what accept() gives for the address: [Some host] for an Internet
    address, [None] for the empty string of a Unix socket, whose [[0]] is an
    IndexError, raised a second time in the handler. *)
Definition accept (cb : callback) (b : base) (loads : bool) (p : peer) (addr : option text)
  : accepted :=
  match wrap true false loads b with
  | (b', Some KOS) => mkacc (Ok None) b' true false
  | (b', Some KValue) => mkacc (Raise EValueError) b' false false
  | (b', None) =>
      if negb (handshake (b_ctx b') true p) then mkacc (Ok None) b' true false
      else if verifies (b_ctx b') then
        match addr with
        | None => mkacc (Raise EIndexError) b' false false
        | Some h =>
            match cb (getpeercert (b_ctx b') p) h with
            | Accepts => mkacc (Ok (Some true)) b' false false
            | _ => mkacc (Ok None) b' true true
            end
        end
      else mkacc (Ok (Some false)) b' false false
  end.
