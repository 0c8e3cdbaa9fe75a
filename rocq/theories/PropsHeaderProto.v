(** C60: THeaderProtocol, and services on it. *)
From Coq Require Import String.
From Coq Require Import ZArith List Bool Lia.
From Coq Require Import Init.Byte.
From Coq Require Import ZifyBool ZifyNat ZifyN.
From Verif Require Import Base Bytes Utf8 Proto Spec Laws StructFacts InstFacts Binary BinaryLaws
  SpecBinary Compact CompactFacts CompactLaws SpecCompact MsgLaws Rpc RpcFacts RpcSys Transport
  TransportFacts SpecHeader PropsRpc HeaderProtocol HeaderProtoFacts.
From Verif Require Header HeaderFacts PropsHeader.
Import ListNotations.
Open Scope Z_scope.
Open Scope list_scope.

(** * One connection, many dialects *)

(** A request as any client may send it: the dialect, binary or compact, the
    message. *)
Record request := mkrq {
  rq_dialect : dialect; rq_compact : bool; rq_method : method;
  rq_type : Z; rq_seqid : Z; rq_args : list (option value) }.

Section Session.
Variables (compress : list byte -> list byte) (env : schema).
Context {H : Type}.
Variable handler : list Z -> list (option value) -> H -> hres * H.

Definition rq_payload (q : request) : list byte :=
  let m := rq_method q in
  hp_msg (rq_compact q) (m_name m) (rq_type q) (rq_seqid q) env (m_args m)
    (VStruct (m_args m) (rq_args q)).

Definition rq_bytes (q : request) : list byte :=
  request_wire compress (rq_dialect q) (rq_compact q) (rq_payload q).

(** The request is one the server can take. *)
Definition rq_good (SL CL mx md : Z) (allowed : list Z) (ms : list method) (q : request) : Prop :=
  In (rq_method q) ms /\ mtype_ok (rq_type q) /\ seq_ok (rq_seqid q)
  /\ sendable env SL CL (m_args (rq_method q)) (rq_args q)
  /\ In (client_type (rq_dialect q) (rq_compact q)) allowed
  /\ request_fits compress (rq_dialect q) (rq_compact q) mx md (rq_payload q).

(** What the handler does along the way can be encoded and sent. *)
Fixpoint session_good (SL CL mx : Z) (n0 : nat) (l : list request) (h : H) : Prop :=
  match l with
  | [] => True
  | q :: r =>
      let m := rq_method q in
      let (res, h') := handler (m_name m) (received env (m_args m) (rq_args q)) h in
      (forall t, res <> HTransport t)
      /\ (m_oneway m = false ->
            handler_ok env SL CL m res
            /\ forall mt e n v, reply_for env m res = Some (mt, e, n, v) ->
                 reply_fits compress (rq_dialect q) (rq_compact q) n0 mx
                   (hp_msg (rq_compact q) (m_name m) mt (rq_seqid q) e n v))
      /\ session_good SL CL mx n0 r h'
  end.

(** What the server should have sent: for every two-way request in turn one
    message, in the dialect and protocol of the request, with its name and
    sequence id, that the caller decodes as the outcome of its call. *)
Fixpoint answered (n0 : nat) (l : list request) (h : H) (out : list byte) (hend : H) : Prop :=
  match l with
  | [] => out = [] /\ hend = h
  | q :: r =>
      let m := rq_method q in
      let c := rq_compact q in
      let (res, h') := handler (m_name m) (received env (m_args m) (rq_args q)) h in
      if m_oneway m then answered n0 r h' out hend
      else exists rp out',
        out = reply_wire compress (rq_dialect q) c (rq_seqid q) n0 rp ++ out'
        /\ (exists mt e n v, rp = hp_msg c (m_name m) mt (rq_seqid q) e n v)
        /\ reads env c m (expected env m res) rp
        /\ answered n0 r h' out' hend
  end.
End Session.

(** Every sequence of requests on one connection, each in any of the allowed
    dialects, is served in order, each answered in its own dialect; whatever
    follows on the connection is left there. *)
Theorem C60_session : forall compress decompress allowed env H
    (handler : list Z -> list (option value) -> H -> hres * H) ms SL CL n0 mx md l rh rest sent p h,
  HeaderFacts.zlib_ok compress decompress ->
  14 <= SL <= 2147483647 -> CL <= 2147483647 -> mx < Header.HARD_MAX_FRAME_SIZE ->
  schema_ok env -> schema_closed env = true -> service_ok env SL ms ->
  Forall (rq_good compress env SL CL mx md allowed ms) l ->
  session_good compress env handler SL CL mx n0 l h ->
  ready n0 mx md rh (concat (map (rq_bytes compress env) l) ++ rest) sent p ->
  exists p' out h',
    hp_serve compress decompress allowed env handler ms (length l) (p, h) = (Ok tt, (p', h'))
    /\ answered compress env handler n0 l h out h'
    /\ ready n0 mx md (fold_left (fun a q => dialect_headers (rq_dialect q) a) l rh)
         rest (sent ++ out) p'.
Proof.
  intros compress decompress allowed env H handler ms SL CL n0 mx md l rh rest sent p h
    Hz HSL HCL Hmx He Hc Hms Hl. revert rh sent p h.
  induction Hl as [|q l Hq Hl IH]; intros rh sent p h Hg Hp.
  - exists p, [], h. cbn [length hp_serve map concat app answered fold_left] in *.
    rewrite app_nil_r. repeat split; assumption.
  - destruct Hq as (Hi & Ht & Hsq & Ha & Hal & Hfit).
    destruct Hms as [Hnd Hall]. destruct (Hall _ Hi) as [Hn Hm].
    pose proof (lookup_unique _ _ Hnd Hi) as Hlk.
    cbn [session_good] in Hg.
    cbn [map concat] in Hp. rewrite <- app_assoc in Hp.
    destruct (handler (m_name (rq_method q)) (received env (m_args (rq_method q)) (rq_args q)) h)
      as [res h1] eqn:Hr.
    destruct Hg as (Htr & Hh & Hg).
    cbn [length hp_serve]. unfold bind. cbn [fold_left].
    destruct (m_oneway (rq_method q)) eqn:Ho.
    + destruct (one_way SL CL ltac:(lia) HCL compress decompress Hz allowed env He Hc handler ms n0
        mx md Hmx (rq_compact q) (rq_dialect q) (rq_method q) (rq_type q) (rq_seqid q) (rq_args q)
        _ sent rh p h h1 res Ho Htr Hlk Hn Ht Hsq Ha Hal Hfit Hr Hp) as (p1 & E1 & H1).
      destruct (IH _ _ _ _ Hg H1) as (p2 & out & h2 & E2 & Ha2 & H2).
      exists p2, out, h2. rewrite E1. split; [exact E2|]. split; [|exact H2].
      cbn [answered]. rewrite Hr, Ho. exact Ha2.
    + destruct (Hh eq_refl) as [Hh1 Hh2].
      destruct (two_way SL CL ltac:(lia) HCL compress decompress Hz allowed env He Hc handler ms n0
        mx md Hmx (rq_compact q) (rq_dialect q) (rq_method q) (rq_type q) (rq_seqid q) (rq_args q)
        _ sent rh p h h1 res ltac:(lia) Ho (Hm eq_refl) Hh1 Htr Hlk Hn Ht Hsq Ha Hal Hfit Hr Hh2 Hp)
        as (e & n & v & p1 & Er & E1 & H1).
      destruct (IH _ _ _ _ Hg H1) as (p2 & out & h2 & E2 & Ha2 & H2).
      exists p2. eexists. exists h2. rewrite E1. split; [exact E2|]. split.
      2:{ rewrite <- app_assoc in H2. exact H2. }
      cbn [answered]. rewrite Hr, Ho. do 2 eexists. split; [reflexivity|].
      split; [repeat eexists|]. split; [|exact Ha2].
      apply (reply_reads SL CL ltac:(lia) HCL allowed env He Hc handler _ _ _ _ _ _ _ ltac:(lia) (Hm eq_refl) Hn Hsq
        Hh1 Htr Er).
Qed.

(** A new protocol object is ready, whatever has arrived already, and talks
    header format as a client. *)
Theorem C60_new : forall c u s, exists p,
  hp_new (u, s) (proto_id c) = Ok p
  /\ ready 0 Header.DEFAULT_MAX_FRAME_SIZE Header.DEFAULT_MAX_FRAME_SIZE [] u s p
  /\ (u = [] -> s = [] ->
      client c 0 0 Header.DEFAULT_MAX_FRAME_SIZE Header.DEFAULT_MAX_FRAME_SIZE [] p).
Proof.
  intros c u s. exists (mkhp (Header.hdr_init (u, s) (proto_id c)) (if c then SubC c_init else SubB) 0).
  split; [destruct c; reflexivity|]. split; [destruct c; repeat eexists|].
  intros -> ->. destruct c.
  - exists [], [], 0, (SubC c_init). split; [reflexivity|]. exists c_init. repeat split.
  - exists [], [], 0, SubB. split; reflexivity.
Qed.

(** An unknown method: the exception goes out in the dialect of the request and
    the connection goes on. *)
Theorem C60_unknown_method : forall compress decompress allowed env H
    (handler : list Z -> list (option value) -> H -> hres * H) ms SL CL n0 mx md c d name type
    seqid e n args rest sent rh p h,
  let payload := hp_msg c name type seqid e n (VStruct n args) in
  let rp := hp_msg c name EXCEPTION seqid app_env O
              (VStruct 0 [Some (VStr (lit "Unknown function " ++ name)); Some (VInt 1)]) in
  HeaderFacts.zlib_ok compress decompress ->
  SL <= 2147483647 -> CL <= 2147483647 -> mx < Header.HARD_MAX_FRAME_SIZE ->
  ~ In name (map m_name ms) -> name_ok SL (lit "Unknown function " ++ name) -> name_ok SL name ->
  mtype_ok type -> seq_ok seqid ->
  schema_ok e -> wf e SL CL (TStruct n) (VStruct n args) = true ->
  (vdepth (VStruct n args) <= 64)%nat -> all_bin utf8_valid (VStruct n args) = true ->
  In (client_type d c) allowed -> request_fits compress d c mx md payload ->
  reply_fits compress d c n0 mx rp ->
  ready n0 mx md rh (request_wire compress d c payload ++ rest) sent p ->
  exists p', hp_process compress decompress allowed env handler ms (p, h) = (Ok tt, (p', h))
    /\ ready n0 mx md (dialect_headers d rh) rest (sent ++ reply_wire compress d c seqid n0 rp) p'.
Proof.
  intros compress decompress allowed env H handler ms SL CL n0 mx md c d name type seqid e n args
    rest sent rh p h payload rp Hz HSL HCL Hmx Hni Hu Hn Ht Hq He Hwf Hd Hb Hal Hfit Hrf Hp.
  refine (unknown SL CL HSL HCL compress decompress Hz allowed env handler ms n0 mx md Hmx c d name
    type seqid e n args rest sent rh p h _ Hn Ht Hq Hu He Hwf Hd Hb Hal Hfit Hrf Hp).
  destruct (lookup name ms) as [m|] eqn:E; [|reflexivity].
  apply lookup_name in E as [<- E]. destruct Hni. apply in_map. exact E.
Qed.

(** * Client and server *)

Section Calls.
Variables (compress : list byte -> list byte) (env : schema).
Context {H : Type}.
Variable handler : list Z -> list (option value) -> H -> hres * H.

Definition call : Type := (list (list byte * list byte) * method * list (option value))%type.

Fixpoint calls_good (SL CL : Z) (n0 : nat) (mx md : Z) (c : bool) (n : nat) (fl mxc mdc : Z)
    (l : list call) (h : H) : Prop :=
  match l with
  | [] => True
  | (hs, m, args) :: r =>
      let (res, h') := handler (m_name m) (received env (m_args m) args) h in
      (forall t, res <> HTransport t)
      /\ (m_oneway m = false -> handler_ok env SL CL m res)
      /\ call_fits compress env n0 mx md c n fl mxc mdc hs m args res
      /\ calls_good SL CL n0 mx md c n fl mxc mdc r h'
  end.
End Calls.

(** A client and a server on THeaderProtocol, with any info headers, any number
    of compressions in either direction, binary or compact: every call gives what
    calling the handler directly gives, and the server sees the headers of each
    call. *)
Theorem C60_calls : forall compress decompress allowed env H
    (handler : list Z -> list (option value) -> H -> hres * H) ms SL CL n0 mx md c n fl mxc mdc
    l hs0 rh cp sp h,
  HeaderFacts.zlib_ok compress decompress ->
  14 <= SL <= 2147483647 -> CL <= 2147483647 ->
  mx < Header.HARD_MAX_FRAME_SIZE -> mxc < Header.HARD_MAX_FRAME_SIZE -> In 0 allowed ->
  schema_ok env -> schema_closed env = true -> service_ok env SL ms ->
  (forall hs m args, In (hs, m, args) l -> In m ms /\ sendable env SL CL (m_args m) args) ->
  calls_good compress env handler SL CL n0 mx md c n fl mxc mdc l h ->
  client c n fl mxc mdc hs0 cp -> ready n0 mx md rh [] [] sp ->
  let direct := reference env handler (map (fun x => (snd (fst x), snd x)) l) h in
  exists cp' sp',
    hp_calls compress decompress allowed env handler ms l (cp, sp, h)
    = (combine (fst direct) (map (fun x => fst (fst x)) l), (cp', sp', snd direct)).
Proof.
  intros compress decompress allowed env H handler ms SL CL n0 mx md c n fl mxc mdc l hs0 rh cp sp
    h Hz HSL HCL Hmx Hmxc Hal He Hc Hms Hl. revert hs0 rh cp sp h.
  induction l as [|[[hs m] args] l IH]; intros hs0 rh cp sp h Hg Hcp Hsp direct.
  - exists cp, sp. reflexivity.
  - unfold direct. cbn [map fst snd reference calls_good hp_calls] in *.
    destruct (handler (m_name m) (received env (m_args m) args) h) as [res h1] eqn:Hr.
    destruct Hg as (Htr & Hh & Hf & Hg).
    destruct (Hl hs m args (or_introl eq_refl)) as [Hi Ha].
    destruct (call_ok SL CL ltac:(lia) HCL compress decompress Hz allowed env He Hc handler ms n0 mx
      md Hmx c n fl mxc mdc hs hs0 m args cp sp h h1 res rh ltac:(lia) Hi Hms Ha Hr Hh Htr Hmxc Hal
      Hf Hcp Hsp) as (cp1 & sp1 & E1 & Hcp1 & Hsp1).
    rewrite E1.
    destruct (IH (fun hs m args Hin => Hl hs m args (or_intror Hin)) _ _ _ _ _ Hg Hcp1 Hsp1)
      as (cp2 & sp2 & E2).
    rewrite E2. destruct (reference env handler (map _ l) h1) as [os h2].
    cbn [fst snd combine]. exists cp2, sp2. reflexivity.
Qed.

(** * Defects *)

(** No request with an unknown protocol id is answered, for all that
    readMessageBegin does to send an exception: the name it writes is not text, so
    a TypeError is raised half way (defect).  The handler is not called. *)
Theorem C60_unknown_protocol : forall compress decompress allowed env H
    (handler : list Z -> list (option value) -> H -> hres * H) ms (c : bool) n0 mx md rh fl0 sq0 pr0
    ct rb rest sent x flags seq pid n hs payload (h : H),
  HeaderFacts.zlib_ok compress decompress -> In 0 allowed ->
  0 <= flags < 2 ^ 16 -> - 2 ^ 31 <= seq < 2 ^ 31 -> 0 <= pid < 2 ^ 70 -> pid <> 0 -> pid <> 2 ->
  NoDup (map fst hs) ->
  Z.of_nat (length (padded (sh_section pid (repeat 1 n) hs))) < 4 * 2 ^ 16 ->
  let f := sh_frame flags seq pid (repeat 1 n) hs (Nat.iter n compress payload) in
  Z.of_nat (length (sh_body flags seq pid (repeat 1 n) hs (Nat.iter n compress payload))) <= mx
    < Header.HARD_MAX_FRAME_SIZE ->
  (forall k, (k < n)%nat -> Z.of_nat (length (Nat.iter k compress payload)) < md) ->
  c_ready x ->
  let p := mkhp (Header.mkhdr (f ++ rest, sent) ct rb rh [] [] (repeat 1 n0) fl0 sq0 pr0 mx md)
             (if c then SubC x else SubB) 0 in
  exists p', hp_process compress decompress allowed env handler ms (p, h)
             = (Raise ETypeError, (p', h))
    /\ Header.h_trans (p_trans p') = (rest, sent)
    /\ Header.h_wbuf (p_trans p') = (if c then [x82; x61; x00] else [x80; x01; x00; x03]).
Proof.
  intros compress decompress allowed env H handler ms c n0 mx md rh fl0 sq0 pr0 ct rb rest sent x
    flags seq pid n hs payload h Hz Hal Hf Hq Hpid H0 H2 Hnd Hsec f Hb Hdec Hx p.
  destruct (PropsHeader.C21_read wire flat _ compress decompress allowed 0
      (Header.mkhdr (f ++ rest, sent) ct rb rh [] [] (repeat 1 n0) fl0 sq0 pr0 mx md)
      flags seq pid n hs payload rest (flat_stream sent) Hz Hal Hf Hq Hpid Hnd Hsec Hb Hdec eq_refl)
      as (t & h' & E & E1 & Et & E2 & E3 & E4 & E5 & E6 & E7 & E8 & E9 & E10 & E11 & E12).
  assert (Es : forall u (z : Z), set_protocol (mkhp h' u z)
    = (Raise (EApplication TP_INVALID_PROTOCOL), mkhp h' u z)).
  { intros u z. unfold set_protocol, Header.protocol_id. cbn [p_trans p_sub p_depth].
    rewrite E7, E6. change (Header.CT_HEADERS =? Header.CT_HEADERS) with true. cbv iota.
    replace (pid =? Header.SP_BINARY) with false by (unfold Header.SP_BINARY; lia).
    replace (pid =? Header.SP_COMPACT) with false by (unfold Header.SP_COMPACT; lia). reflexivity. }
  assert (Eb : exists p', begin_exception (mkhp h' (if c then SubC x else SubB) 0)
      = (Raise ETypeError, p')
    /\ Header.h_trans (p_trans p') = (rest, sent)
    /\ Header.h_wbuf (p_trans p') = (if c then [x82; x61; x00] else [x80; x01; x00; x03])).
  { unfold begin_exception. cbn [p_trans p_sub p_depth]. destruct c.
    - destruct Hx as (Hx & _). rewrite Hx. eexists. split; [reflexivity|].
      cbn [p_trans Header.with_wbuf Header.h_trans Header.h_wbuf].
      cbn [Header.h_wbuf] in E8. rewrite E1, E8. split; [exact Et|reflexivity].
    - eexists. split; [reflexivity|].
      cbn [p_trans Header.with_wbuf Header.h_trans Header.h_wbuf].
      cbn [Header.h_wbuf] in E8. rewrite E1, E8. split; [exact Et|reflexivity]. }
  destruct Eb as (p' & Eb & Ht & Hw).
  exists p'. split; [|split; assumption].
  unfold hp_process. unfold bind at 1, both at 1. cbn [fst snd].
  unfold hp_readMessageBegin. unfold bind at 1, on_trans at 1. unfold p. cbn [p_trans p_sub p_depth].
  rewrite E, Es, Eb. reflexivity.
Qed.

(** Nor is a request with a transform the server does not know. *)
Definition id_compress (b : list byte) : list byte := b.
Definition id_decompress (b : list byte) (m : Z) : option (list byte * list byte) :=
  if Z.of_nat (length b) <? m then Some (b, []) else None.

Definition ex_ready (u : list byte) : hp :=
  mkhp (Header.hdr_init (u, []) 0) SubB 0.

Theorem C60_unknown_transform_refuted : exists u,
  u = sh_frame 0 1 0 [9] [] (hp_msg false (lit "ping") ONEWAY 1 rpc_env 3 (VStruct 3 []))
  /\ exists p', hp_process id_compress id_decompress [0; 1; 2; 3; 4] rpc_env rpc_handler rpc_ms
                  (ex_ready u, 5) = (Raise ETypeError, (p', 5))
     /\ snd (Header.h_trans (p_trans p')) = [].
Proof. eexists. split; [reflexivity|]. eexists. split; vm_compute; reflexivity. Qed.

(** Headers are not forgotten: after a request without any, the server still has
    those of the one before (defect). *)
Theorem C60_stale_headers_refuted : exists q1 q2 hs p' h',
  rq_dialect q1 = DHeaders 0 1 hs 0 /\ rq_dialect q2 = DFramed /\ hs <> []
  /\ hp_serve id_compress id_decompress [0; 1; 2; 3; 4] rpc_env rpc_handler rpc_ms 2
       (ex_ready (rq_bytes id_compress rpc_env q1 ++ rq_bytes id_compress rpc_env q2), 5)
     = (Ok tt, (p', h'))
  /\ Header.h_rheaders (p_trans p') = hs.
Proof.
  exists (mkrq (DHeaders 0 1 [([x6b], [x76])] 0) false rpc_ping ONEWAY 1 []).
  exists (mkrq DFramed true rpc_ping ONEWAY 2 []). exists [([x6b], [x76])].
  eexists. eexists. split; [reflexivity|]. split; [reflexivity|]. split; [discriminate|].
  split; vm_compute; reflexivity.
Qed.

(** * Cases *)

Example C60_zlib : HeaderFacts.zlib_ok id_compress id_decompress.
Proof.
  intros b m Hb. unfold id_compress, id_decompress.
  replace (Z.of_nat (length b) <? m) with true by lia. reflexivity.
Qed.

(** One connection: header format and binary, then framed compact, then unframed
    binary. *)
Definition ex_session : list request :=
  [ mkrq (DHeaders 7 42 [([x6b], [x76])] 2) false rpc_add CALL 42 [Some (VInt 1); None];
    mkrq DFramed true rpc_ping ONEWAY 3 [];
    mkrq DFramed true rpc_add CALL (-5) [Some (VInt (-1)); None];
    mkrq DUnframed false rpc_add CALL 9 [Some (VInt 0); Some (VInt 4)] ].

Ltac here := vm_compute; intuition congruence.

Example C60_session_ex :
  Forall (rq_good id_compress rpc_env 100 100 1000 1000 [0; 1; 2; 3; 4] rpc_ms) ex_session
  /\ session_good id_compress rpc_env rpc_handler 100 100 1000 1 ex_session 0.
Proof.
  split.
  - repeat apply Forall_cons; [..|apply Forall_nil]; (split; [here|]);
      (split; [split; here|]); (split; [reflexivity|]);
      (split; [split; [reflexivity|vm_compute; lia]|]); (split; [here|]).
    + split; [here|]. split; [here|]. split; [repeat constructor; intros []|].
      split; [here|]. split; [here|]. intros k Hk.
      destruct k as [|[|k]]; [here|here|lia].
    + here.
    + here.
    + exact I.
  - cbn [session_good ex_session rq_method rq_args rpc_add rpc_ping m_name m_args received attrs
      with_defaults nth_error rpc_env f_ty f_def m_oneway rpc_handler].
    split; [discriminate|]. split.
    { intros _. split; [split; [reflexivity|vm_compute; lia]|].
      intros mt e n v E. injection E as <- <- <- <-. split; here. }
    split; [discriminate|]. split; [discriminate|]. split; [discriminate|]. split.
    { intros _. split; [intros _; split; [reflexivity|vm_compute; lia]|].
      intros mt e n v E. injection E as <- <- <- <-. here. }
    split; [discriminate|]. split; [|exact I].
    intros _. split; [exact I|].
    intros mt e n v E. injection E as <- <- <- <-. here.
Qed.

(** What becomes of it: 11, the declared exception, and "Internal error". *)
Example C60_session_run :
  let u := concat (map (rq_bytes id_compress rpc_env) ex_session) in
  let s := hp_serve id_compress id_decompress [0; 1; 2; 3; 4] rpc_env rpc_handler rpc_ms 4
             (ex_ready u, 0) in
  fst s = Ok tt /\ snd (snd s) = 103
  /\ snd (Header.h_trans (p_trans (fst (snd s))))
     = sh_frame 7 42 0 [] [] (b_msg true (lit "add") REPLY 42 rpc_env 1
                                (VStruct 1 [Some (VInt 11); None]))
       ++ (let r := c_msg (lit "add") REPLY (-5) rpc_env 1
                      (VStruct 1 [None; Some (VStruct 2 [Some (VStr (lit "neg"))])]) in
           be_bytes 4 (Z.of_nat (length r)) ++ r)
       ++ b_msg true (lit "add") EXCEPTION 9 app_env 0
            (VStruct 0 [Some (VStr (lit "Internal error")); Some (VInt 6)]).
Proof. vm_compute. repeat split. Qed.

Definition ex_calls : list call :=
  [ ([([x6b], [x76])], rpc_add, [Some (VInt 1); None]);
    ([], rpc_ping, []);
    ([([x61], [x62]); ([x63], [])], rpc_add, [Some (VInt 5); Some (VInt 6)]) ].

Ltac frame_fits :=
  split; [here|]; split; [here|];
  split; [repeat constructor; cbn; intuition congruence|];
  split; [here|]; split; [here|];
  let k := fresh "k" in let Hk := fresh "Hk" in
  intros k Hk; destruct k as [|[|k]]; [here|try here; lia|lia].
Ltac fits :=
  split; [here|]; split; [frame_fits|];
  first [ discriminate
        | let E := fresh in
          intros _ mt e k v E; injection E as <- <- <- <-; split; [split; here|frame_fits] ].

Example C60_calls_ex :
  calls_good id_compress rpc_env rpc_handler 100 100 1 1000 1000 true 2 0 1000 1000 ex_calls 0
  /\ (forall hs m args, In (hs, m, args) ex_calls ->
        In m rpc_ms /\ sendable rpc_env 100 100 (m_args m) args)
  /\ exists cp sp,
       client true 2 0 1000 1000 [] cp /\ ready 1 1000 1000 [] [] [] sp
       /\ fst (hp_calls id_compress id_decompress [0] rpc_env rpc_handler rpc_ms ex_calls (cp, sp, 0))
          = [ (Ok (CReturn (Some (VInt 11))), [([x6b], [x76])]); (Ok (CReturn None), []);
              (Ok (CReturn (Some (VInt 11))), [([x61], [x62]); ([x63], [])]) ].
Proof.
  split; [|split].
  - cbn [calls_good ex_calls rpc_add rpc_ping m_name m_args received attrs
      with_defaults nth_error rpc_env f_ty f_def m_oneway rpc_handler].
    split; [discriminate|]. split; [intros _; split; [reflexivity|vm_compute; lia]|].
    split; [fits|].
    split; [discriminate|]. split; [discriminate|]. split; [fits|].
    split; [discriminate|]. split; [intros _; split; [reflexivity|vm_compute; lia]|].
    split; [fits|exact I].
  - intros hs m args [E|[E|[E|[]]]]; injection E as <- <- <-;
      (split; [here|split; [reflexivity|vm_compute; lia]]).
  - exists (mkhp (Header.mkhdr ([], []) 0 [] [] [] [] [1; 1] 0 0 2 1000 1000) (SubC c_init) 0),
      (mkhp (Header.mkhdr ([], []) 0 [] [] [] [] [1] 0 0 0 1000 1000) SubB 0).
    split; [|split; [repeat eexists|vm_compute; reflexivity]].
    exists [], [], 0, (SubC c_init). split; [reflexivity|]. exists c_init. repeat split.
Qed.

(** Axioms used. *)
Print Assumptions C60_session.
Print Assumptions C60_new.
Print Assumptions C60_unknown_method.
Print Assumptions C60_calls.
Print Assumptions C60_unknown_protocol.
Print Assumptions C60_unknown_transform_refuted.
Print Assumptions C60_stale_headers_refuted.
