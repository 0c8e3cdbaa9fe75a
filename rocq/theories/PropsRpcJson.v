(** C70: calls over TJSONProtocol. *)
From Coq Require Import String.
From Coq Require Import ZArith List Bool Lia.
From Coq Require Import Init.Byte.
From Coq Require Import ZifyBool ZifyNat ZifyN.
From Verif Require Import Base Bytes BytesFacts Utf8 Proto Spec Laws StructFacts BinaryLaws
  Closure FrameFacts JsonText JsonTextFacts Json JsonLaws SpecJson JsonFacts Compact Examples MsgLaws
  JsonMsg Rpc RpcFacts RpcSys PropsRpc RpcVersions RpcVersionsFacts HttpServer HttpFacts
  Transport HttpClient HttpClientFacts HttpRpcFacts Twisted TornadoRpc TornadoRpcFacts
  PropsTornadoRpc.
Import ListNotations.
Open Scope Z_scope.
Open Scope list_scope.

(** An arguments object that can be sent: its doubles are finite (C57). *)
Definition sendable_json (env : schema) (SL CL : Z) (n : nat) (args : list (option value))
  : Prop :=
  wfd finite env SL CL (TStruct n) (VStruct n args) = true
  /\ (sdepth (VStruct n args) <= 64)%nat.

(** The payload of a reply. *)
Definition json_payload_ok (env : schema) (SL CL : Z) (m : method) (type : Z)
    (e : schema) (n : nat) (v : value) : Prop :=
  wfd finite e SL CL (TStruct n) v = true /\
  if type =? EXCEPTION then e = app_env /\ n = O else e = env /\ n = m_result m.

(** * One request *)

(** The object may be in any state whatever: readMessageBegin and
    writeMessageBegin start over. *)
Theorem C70_two_way : forall limit SL CL env H
    (handler : list Z -> list (option value) -> H -> hres * H)
    ms m args type seqid tail io oi xi xo sent h h' r F,
  j_limits limit SL CL -> 14 <= SL ->
  schema_ok env -> schema_closed env = true ->
  lookup (m_name m) ms = Some m -> m_oneway m = false -> method_ok env m ->
  name_ok SL (m_name m) -> mtype_ok type -> seq_ok seqid ->
  sendable_json env SL CL (m_args m) args ->
  handler (m_name m) (received env (m_args m) args) h = (r, h') ->
  handler_okd finite env SL CL m r -> (forall t, r <> HTransport t) ->
  let req := j_msg (m_name m) type seqid env (m_args m) (VStruct (m_args m) args) in
  (length req <= F)%nat ->
  exists rtype e n v xi' xo',
    process (json limit) env handler F ms
      (mkss (mkst xi (req ++ tail) io 0) (mkst xo oi [] 0) sent h)
    = (Ok tt, mkss (mkst xi' tail io 0) (mkst xo' oi [] 0)
         (sent ++ [j_msg (m_name m) rtype seqid e n v]) h')
    /\ json_payload_ok env SL CL m rtype e n v
    /\ rtype = match r with
               | HReturn _ => REPLY
               | HRaise (VStruct c _) =>
                   if existsb (fun x => Nat.eqb c (snd x)) (m_xs m) then REPLY else EXCEPTION
               | _ => EXCEPTION
               end.
Proof.
  intros limit SL CL env H handler ms m args type seqid tail io oi xi xo sent h h' r F
    HL HSL He Hc Hl Ho Hm Hn Ht Hq Ha Hr Hh Htr req HF.
  set (L := json_mlaws limit SL CL HL).
  destruct (process_request L env He Hc handler ms m type args seqid tail io oi [] xi xo
    sent h h' r F HSL I I Hl Hn Ht Hq Ha Hr Ho Hm Hh Htr HF)
    as (e & n & v & Er & s' & Ep & Hl').
  destruct Hl' as (xi' & xo' & -> & _ & _).
  exists (reply_type m r), e, n, v, xi', xo'. split; [exact Ep|].
  destruct (reply_for_ok finite env SL CL m Hm HSL He Hc r Hh Htr)
    as (e' & n' & v' & Er' & _ & _ & Hwf & _ & _ & Hk).
  assert (e' = e /\ n' = n /\ v' = v) as (-> & -> & ->) by (repeat split; congruence).
  split; [|destruct r as [w|[]| | |]; reflexivity].
  split; [exact Hwf|]. destruct (reply_type m r =? EXCEPTION); tauto.
Qed.

Theorem C70_one_way : forall limit SL CL env H
    (handler : list Z -> list (option value) -> H -> hres * H)
    ms m args type seqid tail io oi oo xi xo sent h h' r F,
  j_limits limit SL CL -> schema_ok env -> schema_closed env = true ->
  lookup (m_name m) ms = Some m -> m_oneway m = true ->
  name_ok SL (m_name m) -> mtype_ok type -> seq_ok seqid ->
  sendable_json env SL CL (m_args m) args ->
  handler (m_name m) (received env (m_args m) args) h = (r, h') ->
  (forall t, r <> HTransport t) ->
  let req := j_msg (m_name m) type seqid env (m_args m) (VStruct (m_args m) args) in
  (length req <= F)%nat ->
  exists xi', process (json limit) env handler F ms
    (mkss (mkst xi (req ++ tail) io 0) (mkst xo oi oo 0) sent h)
  = (Ok tt, mkss (mkst xi' tail io 0) (mkst xo oi oo 0) sent h').
Proof.
  intros limit SL CL env H handler ms m args type seqid tail io oi oo xi xo sent h h' r F
    HL He Hc Hl Ho Hn Ht Hq Ha Hr Htr req HF.
  destruct (process_request_one_way (json_mlaws limit SL CL HL) env He Hc handler ms m type args
    seqid tail io oi oo xi xo sent h h' r F I I Hl Hn Ht Hq Ha Hr Ho Htr HF) as (xi' & E & _).
  exists xi'. exact E.
Qed.

(** Whatever binary fields the unknown arguments hold: TJSONProtocol skips a
    binary as base64 text, not as UTF-8 (compare C29). *)
Theorem C70_unknown : forall limit SL CL env H
    (handler : list Z -> list (option value) -> H -> hres * H)
    ms name type seqid e n args tail io oi xi xo sent h F,
  j_limits limit SL CL ->
  lookup name ms = None -> name_ok SL name -> mtype_ok type -> seq_ok seqid ->
  name_ok SL (lit "Unknown function " ++ name) ->
  schema_ok e -> wfd finite e SL CL (TStruct n) (VStruct n args) = true ->
  (vdepth (VStruct n args) <= 64)%nat ->
  let req := j_msg name type seqid e n (VStruct n args) in
  (length req <= F)%nat ->
  exists xi' xo', process (json limit) env handler F ms
    (mkss (mkst xi (req ++ tail) io 0) (mkst xo oi [] 0) sent h)
  = (Ok tt, mkss (mkst xi' tail io 0) (mkst xo' oi [] 0)
      (sent ++ [j_msg name EXCEPTION seqid app_env 0
                  (VStruct 0 [Some (VStr (lit "Unknown function " ++ name));
                              Some (VInt 1)])]) h).
Proof.
  intros limit SL CL env H handler ms name type seqid e n args tail io oi xi xo sent h F
    HL Hl Hn Ht Hq Hu He Hwf Hd req HF.
  destruct (process_request_unknown (json_mlaws limit SL CL HL) env handler ms name type seqid e n
    args tail io oi [] xi xo sent h F I I Hl Hn Ht Hq Hu He Hwf Hd (all_bin_any _) HF)
    as (s' & E & (xi' & xo' & -> & _)).
  exists xi', xo'. exact E.
Qed.

Theorem C70_transport_error : forall limit SL CL env H
    (handler : list Z -> list (option value) -> H -> hres * H)
    ms m args type seqid tail io oi oo xi xo sent h h' t F,
  j_limits limit SL CL -> schema_ok env -> schema_closed env = true ->
  lookup (m_name m) ms = Some m ->
  name_ok SL (m_name m) -> mtype_ok type -> seq_ok seqid ->
  sendable_json env SL CL (m_args m) args ->
  handler (m_name m) (received env (m_args m) args) h = (HTransport t, h') ->
  let req := j_msg (m_name m) type seqid env (m_args m) (VStruct (m_args m) args) in
  (length req <= F)%nat ->
  exists xi', process (json limit) env handler F ms
    (mkss (mkst xi (req ++ tail) io 0) (mkst xo oi oo 0) sent h)
  = (Raise (ETransport t), mkss (mkst xi' tail io 0) (mkst xo oi oo 0) sent h').
Proof.
  intros limit SL CL env H handler ms m args type seqid tail io oi oo xi xo sent h h' t F
    HL He Hc Hl Hn Ht Hq Ha Hr req HF.
  set (L := json_mlaws limit SL CL HL).
  destruct (process_header L env handler ms F (m_name m) type seqid env (m_args m)
    (VStruct (m_args m) args) tail xi io (mkst xo oi oo 0) sent h I Hn Ht Hq)
    as (x1 & i1 & E & Hi).
  change (message L) with j_msg in E. fold req in E.
  destruct (process_transport L env He Hc handler m args seqid Ha tail io oi x1 xo i1
    sent h h' (HTransport t) F Hi Hr) with (oo := oo) (t := t) as (x2 & E2 & _);
    [|reflexivity|].
  - unfold request_body. unfold req, j_msg in HF. rewrite app_length in HF.
    cbn [ml_body ml_end L json_mlaws]. exact (Nat.le_trans _ _ _ (Nat.le_add_l _ _) HF).
  - exists x2. rewrite E. unfold dispatch. rewrite Hl. exact E2.
Qed.

(** * Whole calls *)

Theorem C70_call : forall limit SL CL env H
    (handler : list Z -> list (option value) -> H -> hres * H) ms m args h h' r xc xi xo,
  j_limits limit SL CL -> 14 <= SL ->
  schema_ok env -> schema_closed env = true -> service_ok env SL ms ->
  In m ms -> sendable_json env SL CL (m_args m) args ->
  handler (m_name m) (received env (m_args m) args) h = (r, h') ->
  (m_oneway m = false -> handler_okd finite env SL CL m r) -> (forall t, r <> HTransport t) ->
  let idle (xc xi xo : jst) (h : H) := (mkcs (mkst xc [] [] 0) [],
      mkss (mkst xi [] [] 0) (mkst xo [] [] 0) [] h) in
  exists xc' xi' xo',
    call (json limit) env handler ms m args (idle xc xi xo h)
    = (Ok (if m_oneway m then CReturn None else expected env m r), idle xc' xi' xo' h').
Proof.
  intros limit SL CL env H handler ms m args h h' r xc xi xo HL HSL He Hc Hms Hi Ha
    Hr Hh Htr idle.
  destruct (call_ok (json_mlaws limit SL CL HL) env He Hc handler ms Hms HSL m args h h' r
    (idle xc xi xo h) Hi Ha Hr Hh Htr) as (y' & E & (xc' & xi' & xo' & -> & _)).
  { exists xc, xi, xo. repeat split. }
  exists xc', xi', xo'. exact E.
Qed.

Theorem C70_history : forall limit SL CL env H
    (handler : list Z -> list (option value) -> H -> hres * H) ms l h (xc xi xo : jst),
  j_limits limit SL CL -> 14 <= SL ->
  schema_ok env -> schema_closed env = true -> service_ok env SL ms ->
  (forall m args, In (m, args) l -> In m ms /\ sendable_json env SL CL (m_args m) args) ->
  good_historyd finite env handler SL CL l h ->
  let idle (xc xi xo : jst) (h : H) := (mkcs (mkst xc [] [] 0) [],
      mkss (mkst xi [] [] 0) (mkst xo [] [] 0) [] h) in
  exists xc' xi' xo',
  Rpc.calls (json limit) env handler ms l (idle xc xi xo h)
  = (fst (reference env handler l h), idle xc' xi' xo' (snd (reference env handler l h))).
Proof.
  intros limit SL CL env H handler ms l h xc xi xo HL HSL He Hc Hms Hall Hg idle.
  destruct (calls_ok (json_mlaws limit SL CL HL) env He Hc handler ms Hms HSL l h
    (idle xc xi xo h) Hall Hg) as (y' & E & (xc' & xi' & xo' & -> & _)).
  { exists xc, xi, xo. repeat split. }
  exists xc', xi', xo'. exact E.
Qed.

(** The defect of C31: after a call that gave up waiting, the next one gets its
    reply.  (On a buffer the lack of bytes shows as INVALID_DATA, since the
    reader uses read, not readAll: TJSONProtocol.py:158-171.) *)
Theorem C70_late_reply_fails : forall limit SL CL env H
    (handler : list Z -> list (option value) -> H -> hres * H) ms m a1 a2 h h1 h2 r1 r2,
  j_limits limit SL CL -> 14 <= SL ->
  schema_ok env -> schema_closed env = true -> service_ok env SL ms ->
  In m ms -> m_oneway m = false ->
  sendable_json env SL CL (m_args m) a1 -> sendable_json env SL CL (m_args m) a2 ->
  handler (m_name m) (received env (m_args m) a1) h = (r1, h1) ->
  handler (m_name m) (received env (m_args m) a2) h1 = (r2, h2) ->
  handler_okd finite env SL CL m r1 -> (forall t, r1 <> HTransport t) ->
  handler_okd finite env SL CL m r2 -> (forall t, r2 <> HTransport t) ->
  let idle h := (mkcs (mkst j_init [] [] 0) [],
                 mkss (mkst j_init [] [] 0) (mkst j_init [] [] 0) [] h) in
  exists y1 y2, call_late (json limit) env handler ms m a1 (idle h) = (Raise (EProtocol TP_INVALID_DATA), y1)
    /\ call (json limit) env handler ms m a2 y1 = (Ok (expected env m r1), y2)
    /\ fst (recv (json limit) env (length (inp (cl (fst y2)))) m (fst y2))
       = Ok (expected env m r2).
Proof.
  intros limit SL CL env H handler ms m a1 a2 h h1 h2 r1 r2 HL HSL He Hc Hms Hi Ho Ha1 Ha2
    Hr1 Hr2 Hh1 Ht1 Hh2 Ht2 idle.
  assert (Hempty : forall x o d, True ->
    exists x', j_readMessageBegin limit (mkst x [] o d) = (Raise (EProtocol TP_INVALID_DATA),
      mkst x' [] o d)
      /\ True).
  { intros x o d _. exists j_init. split; [|exact I].
    unfold j_readMessageBegin, readJSONArrayStart. vm_compute. reflexivity. }
  destruct (stale (json_mlaws limit SL CL HL) env He Hc handler ms Hms HSL
    (EProtocol TP_INVALID_DATA) Hempty m a1 a2 h h1 h2 r1 r2 (idle h) Hi Ho Ha1 Ha2
    Hr1 Hr2 Hh1 Ht1 Hh2 Ht2) as (y1 & y2 & E1 & E2 & (x & rp & E3 & Hx & Hrp)).
  { exists j_init, j_init, j_init. repeat split. }
  exists y1, y2. split; [exact E1|]. split; [exact E2|].
  destruct (fst y2) as [c sent]. cbn [cl] in E3. subst c. cbn [cl inp].
  destruct (Hrp x [] sent (length rp) I (Nat.le_refl _)) as (x' & E & _).
  rewrite app_nil_r in E. rewrite E. reflexivity.
Qed.

(** The defect of C32: a call that fails while its arguments are encoded leaves
    the head of a message in the buffer.  The next call goes out behind it. *)
Ltac jw_unfold :=
  cbn [json writeStructBegin writeStructEnd writeFieldBegin writeFieldEnd
    writeFieldStop writeMapBegin writeMapEnd writeListBegin writeListEnd
    writeSetBegin writeSetEnd writeBool writeByte writeI16 writeI32 writeI64
    writeDouble writeString writeBinary writeUuid];
  unfold j_writeStructBegin, j_writeStructEnd, j_writeFieldBegin, j_writeFieldEnd,
    j_writeFieldStop, j_writeMapBegin, j_writeMapEnd, j_writeListBegin,
    j_writeListEnd, j_writeBool, j_writeInt, j_writeDouble, j_writeUuid,
    writeJSONBase64, writeJSONObjectStart, writeJSONObjectEnd,
    writeJSONArrayStart, writeJSONArrayEnd, writeJSONNumber, writeJSONString,
    ctx_write, jwrite, doIO, escapeNum, pushContext, popContext, set_top, get_stack,
    set_stack, encode_utf8, ctype, checkIntegerLimits.

Lemma json_writes limit : rwrites (@writes jst) (json limit).
Proof. constructor; intros; jw_unfold; method (writes_closed jst). Qed.

Lemma json_end_writes : writes unit j_writeMessageEnd j_writeMessageEnd.
Proof. unfold j_writeMessageEnd. jw_unfold. method (writes_closed jst). Qed.

Theorem C70_partial_bytes_fails : forall limit SL CL env m args x i sent e s',
  j_limits limit SL CL -> schema_ok env -> name_ok SL (m_name m) ->
  send (json limit) env m args (mkcs (mkst x i [] 0) sent) = (Raise e, s') ->
  exists x' part,
  let junk := sj_header (m_name m) (if m_oneway m then ONEWAY else CALL) 0 ++ part in
  s' = mkcs (mkst x' i junk 0) sent
  /\ forall m2 args2, name_ok SL (m_name m2) -> sendable_json env SL CL (m_args m2) args2 ->
     exists x2, send (json limit) env m2 args2 s'
     = (Ok tt, mkcs (mkst x2 i [] 0)
          (sent ++ [junk ++ j_msg (m_name m2) (if m_oneway m2 then ONEWAY else CALL) 0
                      env (m_args m2) (VStruct (m_args m2) args2)])).
Proof.
  intros limit SL CL env m args x i sent e s' HL He Hn Hs.
  set (L := json_mlaws limit SL CL HL).
  set (ty := if m_oneway m then ONEWAY else CALL) in *.
  assert (Ht : mtype_ok ty)
    by (unfold ty, mtype_ok, ONEWAY, CALL; destruct (m_oneway m); lia).
  destruct (mw_begin L (m_name m) ty 0 x i [] 0 I Hn Ht eq_refl) as (x1 & E1 & H1).
  unfold send in Hs. fold ty in Hs. unfold bind, on_cl in Hs. cbn [cl cl_sent] in Hs.
  rewrite E1 in Hs. cbn [cl cl_sent] in Hs.
  pose proof (write_value_rel _ (writes_closed jst) (json limit) (json_writes limit) env
    (VStruct (m_args m) args) (TStruct (m_args m))
    (mkst x1 i ([] ++ ml_hdr L (m_name m) ty 0) 0)) as Hw.
  unfold write_struct in *.
  destruct (write_value (json limit) env (TStruct (m_args m)) (VStruct (m_args m) args)
    _) as [r1 s1]; cbn [fst snd] in *.
  destruct Hw as (A & B & post & D). cbn [inp out depth app] in A, B, D.
  assert (Hs' : exists x2 part, s' = mkcs (mkst x2 i (sj_header (m_name m) ty 0 ++ part) 0) sent).
  { destruct r1 as [[]|e'|]; [|exists (px s1), post|discriminate].
    - pose proof (json_end_writes s1) as Hw.
      change (writeMessageEnd (json limit)) with j_writeMessageEnd in Hs.
      cbn [cl cl_sent] in Hs. destruct (j_writeMessageEnd s1) as [[[]|e'|] s2]; cbn [fst snd cl cl_sent] in *;
        try discriminate Hs.
      destruct Hw as (A' & B' & post' & D'). exists (px s2), (post ++ post').
      injection Hs as _ <-. f_equal. destruct s2 as [x2 i2 o2 d2].
      cbn [inp out depth px] in *. rewrite A', B', D', A, B, D, <- app_assoc. reflexivity.
    - injection Hs as _ <-. cbn [cl cl_sent]. f_equal. destruct s1 as [x2 i2 o2 d2].
      cbn [inp out depth px] in *. subst. reflexivity. }
  destruct Hs' as (x2 & part & ->). exists x2, part. split; [reflexivity|].
  intros m2 args2 Hn2 [Hwf Hd].
  destruct (send_ok L env He m2 args2 x2 i (sj_header (m_name m) ty 0 ++ part) sent I Hn2 Hwf Hd)
    as (x3 & E & _). exists x3. exact E.
Qed.

(** * Multiplexing *)

(** A request for [svc:name] does in the multiplexed processor what the request
    for [name] does in the processor of [svc], whatever the decorating object
    shares with the decorated one. *)
Theorem C70_routed : forall limit SL CL env H
    (handlers : option (list Z) -> list Z -> list (option value) -> H -> hres * H)
    undeco F default svcs ms svc m args type seqid tail io oi xi xo sent h,
  j_limits limit SL CL -> 14 <= SL -> schema_ok env -> schema_closed env = true ->
  ~ In 58 svc -> name_ok SL (svc ++ [58] ++ m_name m) -> name_ok SL (m_name m) ->
  type = CALL \/ type = ONEWAY -> seq_ok seqid -> find_service svc svcs = Some ms ->
  lookup (m_name m) ms = Some m -> (m_oneway m = false -> method_ok env m) ->
  sendable_json env SL CL (m_args m) args ->
  let r := fst (handlers (Some svc) (m_name m) (received env (m_args m) args) h) in
  (m_oneway m = false -> handler_okd finite env SL CL m r) -> (forall t, r <> HTransport t) ->
  let req name := j_msg name type seqid env (m_args m) (VStruct (m_args m) args) in
  Z.of_nat (length (req (svc ++ [58] ++ m_name m))) <= Z.of_nat F ->
  exists sent' xi1 xo1 xi2 xo2,
    let h' := snd (handlers (Some svc) (m_name m) (received env (m_args m) args) h) in
    mux_process (json limit) env handlers undeco F default svcs
      (mkss (mkst xi (req (svc ++ [58] ++ m_name m) ++ tail) io 0) (mkst xo oi [] 0) sent h)
    = (Ok tt, mkss (mkst xi1 tail io 0) (mkst xo1 oi [] 0) sent' h')
    /\ process (json limit) env (handlers (Some svc)) F ms
      (mkss (mkst xi (req (m_name m) ++ tail) io 0) (mkst xo oi [] 0) sent h)
    = (Ok tt, mkss (mkst xi2 tail io 0) (mkst xo2 oi [] 0) sent' h').
Proof.
  intros limit SL CL env H handlers undeco F default svcs ms svc m args type seqid tail io oi
    xi xo sent h HL HSL He Hc Hs Hnn Hn Ht Hq Hf Hl Hm Ha r Hh Htr req HF.
  set (L := json_mlaws limit SL CL HL).
  assert (Hmt : mtype_ok type) by (unfold mtype_ok, CALL, ONEWAY in *; lia).
  destruct (handlers (Some svc) (m_name m) (received env (m_args m) args) h) as [r0 h'] eqn:Er.
  subst r. cbn [fst snd] in *.
  set (v := VStruct (m_args m) args) in *.
  destruct (mux_routed L env handlers undeco F default svcs ms svc (m_name m) type seqid
    ((ml_body L env (m_args m) v ++ ml_end L) ++ tail) xi io (mkst xo oi [] 0) sent h I Hs Hnn Ht
    Hq Hf ltac:(rewrite <- app_assoc; apply (mt_body L))) as (x1 & i1 & E1 & H1).
  destruct (process_header L env (handlers (Some svc)) ms F (m_name m) type seqid env (m_args m)
    v tail xi io (mkst xo oi [] 0) sent h I Hn Hmt Hq) as (x2 & i2 & E2 & H2).
  assert (Hlen : (length (ml_body L env (m_args m) v ++ ml_end L) <= F)%nat).
  { apply Nat2Z.inj_le in HF. unfold req, j_msg in HF. rewrite app_length in HF.
    exact (Nat.le_trans _ _ _ (Nat.le_add_l _ _) HF). }
  assert (Ereq : forall nm, req nm ++ tail
     = ml_hdr L nm type seqid ++ (ml_body L env (m_args m) v ++ ml_end L) ++ tail).
  { intros nm. unfold req, j_msg. rewrite <- app_assoc. reflexivity. }
  change (message L (m_name m) type seqid env (m_args m) v) with (req (m_name m)) in E2.
  unfold COLON in E1. rewrite <- Ereq in E1.
  unfold dispatch in E1, E2. unfold decorated in E1. rewrite Hl in E1, E2.
  destruct (m_oneway m) eqn:Ho.
  - destruct (process_one_way L env He Hc (handlers (Some svc)) m args seqid Ha tail io oi x1 xo i1
      sent h h' r0 F H1 Er Hlen [] Ho Htr) as (y1 & F1 & _).
    destruct (process_one_way L env He Hc (handlers (Some svc)) m args seqid Ha tail io oi x2 xo i2
      sent h h' r0 F H2 Er Hlen [] Ho Htr) as (y2 & F2 & _).
    rewrite F1 in E1. rewrite F2 in E2.
    exists sent. do 4 eexists. split; [exact E1|exact E2].
  - destruct (process_two_way L env He Hc (handlers (Some svc)) m args seqid Hn Hq Ha tail io oi x1
      xo i1 sent h h' r0 F H1 I Er Hlen [] HSL Ho (Hm eq_refl) (Hh eq_refl) Htr)
      as (e & n & w & R1 & s1 & F1 & (y1 & z1 & -> & _)).
    destruct (process_two_way L env He Hc (handlers (Some svc)) m args seqid Hn Hq Ha tail io oi x2
      xo i2 sent h h' r0 F H2 I Er Hlen [] HSL Ho (Hm eq_refl) (Hh eq_refl) Htr)
      as (e' & n' & w' & R2 & s2 & F2 & (y2 & z2 & -> & _)).
    assert (e' = e /\ n' = n /\ w' = w) as (-> & -> & ->) by (repeat split; congruence).
    rewrite F1 in E1. rewrite F2 in E2.
    eexists. do 4 eexists. split; [exact E1|exact E2].
Qed.

(** A name without a colon goes to the default processor. *)
Theorem C70_default : forall limit SL CL env H
    (handlers : option (list Z) -> list Z -> list (option value) -> H -> hres * H)
    undeco F svcs ms m args type seqid tail io oi xi xo sent h,
  j_limits limit SL CL -> 14 <= SL -> schema_ok env -> schema_closed env = true ->
  ~ In 58 (m_name m) -> name_ok SL (m_name m) ->
  type = CALL \/ type = ONEWAY -> seq_ok seqid ->
  lookup (m_name m) ms = Some m -> (m_oneway m = false -> method_ok env m) ->
  sendable_json env SL CL (m_args m) args ->
  let r := fst (handlers None (m_name m) (received env (m_args m) args) h) in
  (m_oneway m = false -> handler_okd finite env SL CL m r) -> (forall t, r <> HTransport t) ->
  let req name := j_msg name type seqid env (m_args m) (VStruct (m_args m) args) in
  Z.of_nat (length (req (m_name m))) <= Z.of_nat F ->
  exists sent' xi1 xo1 xi2 xo2,
    let h' := snd (handlers None (m_name m) (received env (m_args m) args) h) in
    mux_process (json limit) env handlers undeco F (Some ms) svcs
      (mkss (mkst xi (req (m_name m) ++ tail) io 0) (mkst xo oi [] 0) sent h)
    = (Ok tt, mkss (mkst xi1 tail io 0) (mkst xo1 oi [] 0) sent' h')
    /\ process (json limit) env (handlers None) F ms
      (mkss (mkst xi (req (m_name m) ++ tail) io 0) (mkst xo oi [] 0) sent h)
    = (Ok tt, mkss (mkst xi2 tail io 0) (mkst xo2 oi [] 0) sent' h').
Proof.
  intros limit SL CL env H handlers undeco F svcs ms m args type seqid tail io oi
    xi xo sent h HL HSL He Hc Hs Hn Ht Hq Hl Hm Ha r Hh Htr req HF.
  set (L := json_mlaws limit SL CL HL).
  assert (Hmt : mtype_ok type) by (unfold mtype_ok, CALL, ONEWAY in *; lia).
  destruct (handlers None (m_name m) (received env (m_args m) args) h) as [r0 h'] eqn:Er.
  subst r. cbn [fst snd] in *.
  set (v := VStruct (m_args m) args) in *.
  destruct (mux_default L env handlers undeco F (Some ms) svcs ms (m_name m) type seqid
    ((ml_body L env (m_args m) v ++ ml_end L) ++ tail) xi io (mkst xo oi [] 0) sent h I Hs Hn Ht
    Hq eq_refl ltac:(rewrite <- app_assoc; apply (mt_body L))) as (x1 & i1 & E1 & H1).
  destruct (process_header L env (handlers None) ms F (m_name m) type seqid env (m_args m)
    v tail xi io (mkst xo oi [] 0) sent h I Hn Hmt Hq) as (x2 & i2 & E2 & H2).
  assert (Hlen : (length (ml_body L env (m_args m) v ++ ml_end L) <= F)%nat).
  { apply Nat2Z.inj_le in HF. unfold req, j_msg in HF. rewrite app_length in HF.
    exact (Nat.le_trans _ _ _ (Nat.le_add_l _ _) HF). }
  assert (Ereq : forall nm, req nm ++ tail
     = ml_hdr L nm type seqid ++ (ml_body L env (m_args m) v ++ ml_end L) ++ tail).
  { intros nm. unfold req, j_msg. rewrite <- app_assoc. reflexivity. }
  change (message L (m_name m) type seqid env (m_args m) v) with (req (m_name m)) in E2.
  rewrite <- Ereq in E1.
  unfold dispatch in E1, E2. unfold decorated in E1. rewrite Hl in E1, E2.
  destruct (m_oneway m) eqn:Ho.
  - destruct (process_one_way L env He Hc (handlers None) m args seqid Ha tail io oi x1 xo i1
      sent h h' r0 F H1 Er Hlen [] Ho Htr) as (y1 & F1 & _).
    destruct (process_one_way L env He Hc (handlers None) m args seqid Ha tail io oi x2 xo i2
      sent h h' r0 F H2 Er Hlen [] Ho Htr) as (y2 & F2 & _).
    rewrite F1 in E1. rewrite F2 in E2.
    exists sent. do 4 eexists. split; [exact E1|exact E2].
  - destruct (process_two_way L env He Hc (handlers None) m args seqid Hn Hq Ha tail io oi x1
      xo i1 sent h h' r0 F H1 I Er Hlen [] HSL Ho (Hm eq_refl) (Hh eq_refl) Htr)
      as (e & n & w & R1 & s1 & F1 & (y1 & z1 & -> & _)).
    destruct (process_two_way L env He Hc (handlers None) m args seqid Hn Hq Ha tail io oi x2
      xo i2 sent h h' r0 F H2 I Er Hlen [] HSL Ho (Hm eq_refl) (Hh eq_refl) Htr)
      as (e' & n' & w' & R2 & s2 & F2 & (y2 & z2 & -> & _)).
    assert (e' = e /\ n' = n /\ w' = w) as (-> & -> & ->) by (repeat split; congruence).
    rewrite F1 in E1. rewrite F2 in E2.
    eexists. do 4 eexists. split; [exact E1|exact E2].
Qed.

Theorem C70_refused : forall limit SL CL env H
    (handlers : option (list Z) -> list Z -> list (option value) -> H -> hres * H)
    undeco F default svcs name type seqid e n v tail x io so sent h,
  j_limits limit SL CL -> name_ok SL name -> mtype_ok type -> seq_ok seqid ->
  refused default svcs name type ->
  exists s', mux_process (json limit) env handlers undeco F default svcs
      (mkss (mkst x (j_msg name type seqid e n v ++ tail) io 0) so sent h)
    = (Raise (EProtocol TP_NOT_IMPLEMENTED), s')
    /\ s_out s' = so /\ s_sent s' = sent /\ s_h s' = h.
Proof.
  intros limit SL CL env H handlers undeco F default svcs name type seqid e n v tail x io so
    sent h HL Hn Ht Hq Hr.
  set (L := json_mlaws limit SL CL HL).
  destruct (mux_refused L env handlers undeco F default svcs name type seqid
    ((ml_body L e n v ++ ml_end L) ++ tail) x io so sent h I Hn Ht Hq Hr
    ltac:(rewrite <- app_assoc; apply (mt_body L))) as (s' & E & K).
  exists s'. split; [|exact K]. unfold j_msg. rewrite <- app_assoc. exact E.
Qed.

(** What the client writes: calls prefixed, replies not. *)
Theorem C70_client : forall limit SL CL svc name type seqid x i o d,
  j_limits limit SL CL -> mtype_ok type -> seq_ok seqid ->
  let full := if (type =? CALL) || (type =? ONEWAY) then svc ++ [58] ++ name else name in
  name_ok SL full ->
  exists x', writeMessageBegin (mux_protocol svc (json limit)) name type seqid (mkst x i o d)
  = (Ok tt, mkst x' i (o ++ sj_header full type seqid) d).
Proof.
  intros limit SL CL svc name type seqid x i o d HL Ht Hq full Hn.
  cbn [mux_protocol writeMessageBegin]. unfold full in *.
  destruct ((type =? CALL) || (type =? ONEWAY)).
  - destruct (mw_begin (json_mlaws limit SL CL HL) _ type seqid x i o d I Hn Ht Hq)
      as (x' & E & _). exists x'. exact E.
  - destruct (mw_begin (json_mlaws limit SL CL HL) _ type seqid x i o d I Hn Ht Hq)
      as (x' & E & _). exists x'. exact E.
Qed.

(** * Between different versions of a service *)

Theorem C70_versions : forall limit SL CL envC envS RA RR H
    (handler : list Z -> list (option value) -> H -> hres * H) ms l h,
  j_limits limit SL CL -> 14 <= SL ->
  schema_ok envC -> schema_ok envS -> schema_closed envS = true -> service_ok envS SL ms ->
  compat_env envC envS RA -> compat_env envS envC RR ->
  vhistoryd finite envC envS SL CL (fun _ => true) RA RR handler ms l h ->
  let idle (xc xi xo : jst) (h : H) := (mkcs (mkst xc [] [] 0) [],
      mkss (mkst xi [] [] 0) (mkst xo [] [] 0) [] h) in
  exists xc xi xo,
  vcalls (json limit) envC envS handler ms l (idle j_init j_init j_init h)
  = (fst (vreference envC envS handler ms l h),
     idle xc xi xo (snd (vreference envC envS handler ms l h))).
Proof.
  intros limit SL CL envC envS RA RR H handler ms l h HL HSL HeC HeS Hc Hms HA HR Hg idle.
  destruct (vcalls_ok (json_mlaws limit SL CL HL) envC envS HeC HeS Hc RA RR HA HR handler ms
    Hms HSL l h (idle j_init j_init j_init h) Hg) as (y' & E & (xc & xi & xo & -> & _)).
  { exists j_init, j_init, j_init. repeat split. }
  exists xc, xi, xo. exact E.
Qed.

(** * Over HTTP and over Tornado *)

Theorem C70_http_history : forall limit SL CL env H
    (handler : list Z -> list (option value) -> H -> hres * H) ms cf legal hung_up l h c,
  j_limits limit SL CL -> 14 <= SL ->
  schema_ok env -> schema_closed env = true -> service_ok env SL ms ->
  (forall x, legal x = true) ->
  (forall n m args, In (n, m, args) l -> In m ms /\ sendable_json env SL CL (m_args m) args) ->
  http_historyd finite env handler SL CL l h ->
  c_wbuf c = [] ->
  exists x c', http_calls (json limit) env handler ms j_init cf legal hung_up l
                 (mkhsys j_init 0 c h)
    = (fst (http_reference env handler hung_up l h),
       mkhsys x 0 c' (snd (http_reference env handler hung_up l h)))
    /\ c_wbuf c' = [].
Proof.
  intros limit SL CL env H handler ms cf legal hung_up l h c HL HSL He Hc Hms Hl Hall Hg Hw.
  destruct (http_calls_ok (json_mlaws limit SL CL HL) env He Hc handler ms Hms HSL j_init
    I cf legal Hl hung_up l h (mkhsys j_init 0 c h) Hall Hg)
    as (y & E & (_ & Hd & Hw' & Hh)).
  { repeat split. exact Hw. }
  exists (y_px y), (y_http y). split; [|exact Hw']. rewrite E. f_equal.
  destruct y as [x d c' h']. cbn [y_depth y_h y_px y_http] in *. subst. reflexivity.
Qed.

Theorem C70_pipelined : forall limit SL CL env H
    (handler : list Z -> list (option value) -> H -> hres * H) ms es h,
  j_limits limit SL CL -> 14 <= SL ->
  schema_ok env -> schema_closed env = true -> service_ok env SL ms ->
  (forall m args, In (m, args) (tcalls es) ->
     In m ms /\ sendable_json env SL CL (m_args m) args) ->
  good_historyd finite env handler SL CL (tcalls es) h ->
  Z.of_nat (length (tcalls es)) < 2147483648 ->
  sized j_msg env handler 1 (tcalls es) h ->
  Forall honest es ->
  pipelined env handler (trun (json limit) env handler ms j_init) (tcalls es) h
    (trun (json limit) env handler ms j_init es (tstart j_init h)).
Proof.
  intros limit SL CL env H handler ms es h HL HSL He Hc Hms Hall Hg Hn Hz Hh.
  apply (pipelined_ok (json_mlaws limit SL CL HL)); try assumption; [exact I|].
  destruct (sized_small (json_mlaws limit SL CL HL) env handler _
    (fun name t q e n v => j_msg_eq limit SL CL HL name t q e n v) _ _ _ Hz) as [A B].
  split; [|split; [exact Hg|split; [exact Hn|split; [exact A|exact B]]]].
  apply Forall_forall. intros [m args] I. exact (Hall m args I).
Qed.

(** * Examples *)

Definition j_sys (h : Z) : sys (X := jst) (H := Z) :=
  (mkcs (mkst j_init [] [] 0) [],
   mkss (mkst j_init [] [] 0) (mkst j_init [] [] 0) [] h).

Example C70_ex :
  let l := [(rpc_add, [Some (VInt 1); None]); (rpc_ping, []);
            (rpc_add, [Some (VInt (-1)); Some (VInt 5)]); (rpc_add, [Some (VInt 3); None])] in
  j_limits None 100 100 /\ service_ok rpc_env 100 rpc_ms
  /\ Forall (fun c => sendable_json rpc_env 100 100 (m_args (fst c)) (snd c)) l
  /\ good_historyd finite rpc_env rpc_handler 100 100 l 0
  /\ fst (Rpc.calls (json None) rpc_env rpc_handler rpc_ms l (j_sys 0))
     = [Ok (CReturn (Some (VInt 11))); Ok (CReturn None);
        Ok (CThrow (VStruct 2 [Some (VStr (lit "neg"))])); Ok (CReturn (Some (VInt 13)))].
Proof.
  split; [repeat split; lia|]. split; [apply rpc_service_ok; lia|].
  split; [repeat constructor; cbn; lia|]. split; [|vm_compute; reflexivity].
  cbn [good_historyd rpc_handler received attrs with_defaults nth_error rpc_env m_args
       rpc_add rpc_ping m_name f_ty f_def].
  repeat split; intros; try discriminate; try (cbn; lia); reflexivity.
Qed.

(** add(2^31, 1) raises; then add(3, 4) does not give 7. *)
Theorem C70_refuted : exists m a1 a2,
  sendable_json rpc_env 100 100 (m_args m) a2 /\
  let os := fst (Rpc.calls (json None) rpc_env rpc_handler rpc_ms [(m, a1); (m, a2)] (j_sys 0)) in
  (exists e, hd Diverge os = Raise e)
  /\ tl os <> fst (Rpc.calls (json None) rpc_env rpc_handler rpc_ms [(m, a2)] (j_sys 0)).
Proof.
  exists rpc_add, [Some (VInt 2147483648); Some (VInt 1)], [Some (VInt 3); Some (VInt 4)].
  split; [split; [reflexivity|cbn; lia]|].
  split; [|vm_compute; discriminate].
  eexists. vm_compute. reflexivity.
Qed.

Example C70_request_ex : lit "[1,""add"",1,0,{""1"":{""i32"":5}}]"
  = map (fun b => Z.of_N (Byte.to_N b))
      (j_msg (lit "add") CALL 0 rpc_env 0 (VStruct 0 [Some (VInt 5); None])).
Proof. vm_compute. reflexivity. Qed.

(** Mux: [calc:add] and [add] give the same reply. *)
Example C70_mux_ex :
  let req name := j_msg name CALL 7 rpc_env 0 (VStruct 0 [Some (VInt 5); None]) in
  let start name := mkss (mkst j_init (req name) [] 0) (mkst j_init [] [] 0) [] 3 in
  name_ok 100 (lit "calc" ++ [58] ++ lit "add")
  /\ handler_okd finite rpc_env 100 100 rpc_add
       (fst (rpc_handler (lit "add") [Some (VInt 5); Some (VInt 10)] 3))
  /\ map s_sent [snd (mux_process (json None) rpc_env (fun _ => rpc_handler) (fun old _ => old)
                   100 None [(lit "calc", rpc_ms)] (start (lit "calc:add")));
                 snd (process (json None) rpc_env rpc_handler 100 rpc_ms (start (lit "add")))]
     = let rp := j_msg (lit "add") REPLY 7 rpc_env 1 (VStruct 1 [Some (VInt 15); None]) in
       [[rp]; [rp]].
Proof.
  split; [reflexivity|]. split; [cbn; repeat split; try reflexivity; lia|vm_compute; reflexivity].
Qed.

Example C70_partial_ex :
  let p := send (json None) rpc_env rpc_add [Some (VInt 2147483648); None]
             (mkcs (mkst j_init [] [] 0) []) in
  fst p = Raise (EProtocol TP_INVALID_DATA)
  /\ map (fun b => Z.of_N (Byte.to_N b)) (out (cl (snd p))) = lit "[1,""add"",1,0,{""1"":{""i32""".

Proof. split; vm_compute; reflexivity. Qed.

(** Axioms used. *)
Print Assumptions C70_two_way.
Print Assumptions C70_one_way.
Print Assumptions C70_unknown.
Print Assumptions C70_transport_error.
Print Assumptions C70_call.
Print Assumptions C70_history.
Print Assumptions C70_late_reply_fails.
Print Assumptions C70_partial_bytes_fails.
Print Assumptions C70_routed.
Print Assumptions C70_default.
Print Assumptions C70_refused.
Print Assumptions C70_client.
Print Assumptions C70_versions.
Print Assumptions C70_http_history.
Print Assumptions C70_pipelined.
Print Assumptions C70_refuted.
