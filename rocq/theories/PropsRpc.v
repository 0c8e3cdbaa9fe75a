(** C28 to C32: multiplexed services, replies, whole calls, what failed calls
    leave behind. *)
From Coq Require Import String.
From Coq Require Import ZArith List Bool Lia.
From Coq Require Import Init.Byte.
From Coq Require Import ZifyBool ZifyNat ZifyN.
From Verif Require Import Base Bytes Utf8 Proto Spec Laws StructFacts Binary
  BinaryLaws SpecBinary Compact CompactLaws SpecCompact InstFacts CodecFacts FrameFacts
  Examples
  MsgLaws Rpc RpcFacts RpcSys.
Import ListNotations.
Open Scope Z_scope.
Open Scope list_scope.

(** A whole message on the wire. *)
Definition b_msg (strict : bool) (name : list Z) (type seqid : Z) (env : schema)
    (n : nat) (v : value) : list byte :=
  sb_message strict name type seqid ++ sb_value env (TStruct n) v.
Definition c_msg (name : list Z) (type seqid : Z) (env : schema) (n : nat) (v : value)
  : list byte :=
  sc_message name type seqid ++ sc_value env (TStruct n) v.

Lemma b_msg_eq cf SL CL H Hs name type seqid env n v :
  message (binary_mlaws cf SL CL H Hs) name type seqid env n v
  = b_msg (strictWrite cf) name type seqid env n v.
Proof. unfold message, b_msg. cbn. rewrite app_nil_r. reflexivity. Qed.

Lemma c_msg_eq cf SL CL H name type seqid env n v :
  message (compact_mlaws cf SL CL H) name type seqid env n v
  = c_msg name type seqid env n v.
Proof. unfold message, c_msg. cbn. rewrite app_nil_r. reflexivity. Qed.

(** An arguments object that can be sent. *)
Definition sendable (env : schema) (SL CL : Z) (n : nat) (args : list (option value)) : Prop :=
  wf env SL CL (TStruct n) (VStruct n args) = true
  /\ (sdepth (VStruct n args) <= 64)%nat.

(** The strict flag of a binary protocol used at both ends. *)
Definition strict_ok (cf : bconf) : Prop := strictWrite cf = false -> strictRead cf = false.

(** A service for the examples: struct 0 [add_args], struct 1 [add_result],
    struct 2 an exception, struct 3 [ping_args]. *)
Definition rpc_env : schema :=
  [ [ mkfield 1 TI32 false None; mkfield 2 TI32 false (Some (VInt 10)) ];
    [ mkfield 0 TI32 false None; mkfield 1 (TStruct 2) false None ];
    [ mkfield 1 TString false None ];
    [ ] ].
Definition rpc_add : method := mkmethod (lit "add") false 0 1 (Some TI32) [(1, 2%nat)].
Definition rpc_ping : method := mkmethod (lit "ping") true 3 0 None [].
Definition rpc_ms : list method := [rpc_ping; rpc_add].

(** Adds and counts; raises the declared exception on a negative argument, an
    undeclared one on zero. *)
Definition rpc_handler (name : list Z) (args : list (option value)) (h : Z) : hres * Z :=
  match args with
  | [Some (VInt a); Some (VInt b)] =>
      (if a <? 0 then HRaise (VStruct 2 [Some (VStr (lit "neg"))])
       else if a =? 0 then HOther else HReturn (Some (VInt (a + b))), h + 1)
  | _ => (HReturn None, h + 100)
  end.

Lemma rpc_env_ok : schema_ok rpc_env.
Proof. apply schema_okb_ok. reflexivity. Qed.

Lemma rpc_service_ok SL : 4 <= SL -> service_ok rpc_env SL rpc_ms.
Proof.
  intros H. split.
  - repeat constructor; cbn; intuition discriminate.
  - intros m [<-|[<-|[]]]; (split; [unfold name_ok, base_okd, len_le; cbn; lia|]);
      intros; reflexivity || discriminate.
Qed.

Lemma rpc_add_sendable a b : -1000 <= a <= 1000 -> -1000 <= b <= 1000 ->
  sendable rpc_env 100 100 0 [Some (VInt a); Some (VInt b)].
Proof.
  intros Ha Hb. split; [|cbn; lia]. cbn [wfd nth_error rpc_env Nat.eqb f_ty f_req andb].
  unfold base_okd, between. lia.
Qed.

Definition b_sys (h : Z) : sys (X := unit) (H := Z) :=
  (mkcs (mkst tt [] [] 0) [], mkss (mkst tt [] [] 0) (mkst tt [] [] 0) [] h).
Definition c_sys (h : Z) : sys (X := cst) (H := Z) :=
  (mkcs (mkst c_init [] [] 0) [],
   mkss (mkst c_init [] [] 0) (mkst c_init [] [] 0) [] h).

(** * C28 *)

(** A request whose header names [svc:name] is handled exactly as one naming
    [name] is by the processor of [svc] alone: same outcome and same state. *)
Theorem C28_routed_binary : forall cf SL CL env H
    (handlers : option (list Z) -> list Z -> list (option value) -> H -> hres * H)
    F default svcs ms svc name type seqid tail io so sent h,
  b_limits cf SL CL -> ~ In 58 svc ->
  name_ok SL (svc ++ [58] ++ name) -> name_ok SL name ->
  type = CALL \/ type = ONEWAY -> seq_ok seqid -> find_service svc svcs = Some ms ->
  mux_process (binary cf) env handlers undeco_binary F default svcs
    (mkss (mkst tt (sb_message true (svc ++ [58] ++ name) type seqid ++ tail) io 0)
          so sent h)
  = process (binary cf) env (handlers (Some svc)) F ms
    (mkss (mkst tt (sb_message true name type seqid ++ tail) io 0) so sent h).
Proof.
  intros. eapply binary_mux_plain; eassumption.
Qed.

(** In the compact protocol only the reading object's own attributes differ. *)
Theorem C28_routed_compact : forall cf SL CL env H
    (handlers : option (list Z) -> list Z -> list (option value) -> H -> hres * H)
    F default svcs ms svc name type seqid tail x io so sent h,
  c_limits cf SL CL -> c_ready x -> ~ In 58 svc ->
  name_ok SL (svc ++ [58] ++ name) -> name_ok SL name ->
  type = CALL \/ type = ONEWAY -> seq_ok seqid -> find_service svc svcs = Some ms ->
  let m := mux_process (compact cf) env handlers undeco_compact F default svcs
    (mkss (mkst x (sc_message (svc ++ [58] ++ name) type seqid ++ tail) io 0)
          so sent h) in
  let p := process (compact cf) env (handlers (Some svc)) F ms
    (mkss (mkst x (sc_message name type seqid ++ tail) io 0) so sent h) in
  fst m = fst p /\ inp (s_in (snd m)) = inp (s_in (snd p))
  /\ s_out (snd m) = s_out (snd p) /\ s_sent (snd m) = s_sent (snd p)
  /\ s_h (snd m) = s_h (snd p) /\ state (px (s_in (snd m))) = CLEAR.
Proof.
  intros cf SL CL env H handlers F default svcs ms svc name type seqid tail x io so sent h
    HL Hx Hs Hn Hn' Ht Hq Hf m p. subst m p.
  pose proof (compact_mux_plain cf SL CL HL env H handlers F default svcs ms svc name type
    seqid tail x io so sent h Hx Hs Hn Hn' Ht Hq Hf) as E. unfold COLON in E. rewrite E.
  destruct (process _ _ _ _ _ _) as [r s'].
  cbn [fst snd s_in s_out s_sent s_h inp px undeco_compact state].
  repeat split. apply Hx.
Qed.

(** What the client writes for a call is that header; replies are unprefixed. *)
Theorem C28_client_binary : forall cf SL CL svc name type seqid i o d,
  b_limits cf SL CL -> strict_ok cf ->
  name_ok SL (svc ++ [58] ++ name) -> seq_ok seqid -> type = CALL \/ type = ONEWAY ->
  writeMessageBegin (mux_protocol svc (binary cf)) name type seqid (mkst tt i o d)
  = (Ok tt, mkst tt i (o ++ sb_message (strictWrite cf) (svc ++ [58] ++ name) type seqid) d).
Proof.
  intros cf SL CL svc name type seqid i o d HL Hs Hn Hq Ht.
  destruct (mux_write (binary_mlaws cf SL CL HL Hs) svc name type seqid tt i o d I Hn Ht Hq)
    as ([] & E & _). exact E.
Qed.

Theorem C28_client_compact : forall cf SL CL svc name type seqid x i o d,
  c_limits cf SL CL -> c_ready x ->
  name_ok SL (svc ++ [58] ++ name) -> seq_ok seqid -> type = CALL \/ type = ONEWAY ->
  exists x', writeMessageBegin (mux_protocol svc (compact cf)) name type seqid (mkst x i o d)
  = (Ok tt, mkst x' i (o ++ sc_message (svc ++ [58] ++ name) type seqid) d).
Proof.
  intros cf SL CL svc name type seqid x i o d HL Hx Hn Hq Ht.
  destruct (mux_write (compact_mlaws cf SL CL HL) svc name type seqid x i o d Hx Hn Ht Hq)
    as (x' & E & _). exists x'. exact E.
Qed.

(** A name without a colon goes to the default processor, whole. *)
Theorem C28_default_binary : forall cf SL CL env H
    (handlers : option (list Z) -> list Z -> list (option value) -> H -> hres * H)
    F svcs ms name type seqid tail io so sent h,
  b_limits cf SL CL -> strict_ok cf -> ~ In 58 name -> name_ok SL name ->
  type = CALL \/ type = ONEWAY -> seq_ok seqid ->
  mux_process (binary cf) env handlers undeco_binary F (Some ms) svcs
    (mkss (mkst tt (sb_message (strictWrite cf) name type seqid ++ tail) io 0) so sent h)
  = process (binary cf) env (handlers None) F ms
    (mkss (mkst tt (sb_message (strictWrite cf) name type seqid ++ tail) io 0) so sent h).
Proof.
  intros cf SL CL env H handlers F svcs ms name type seqid tail io so sent h HL Hs Hc Hn Ht Hq.
  pose (L := binary_mlaws cf SL CL HL Hs).
  destruct (mux_default L env handlers undeco_binary F (Some ms) svcs ms name type
    seqid tail tt io so sent h I Hc Hn Ht Hq eq_refl Logic.I) as ([] & i' & E & Hi).
  cbn in Hi. subst i'. change (ml_hdr L) with (sb_message (strictWrite cf)) in E.
  rewrite E. assert (Hmt : mtype_ok type) by (unfold mtype_ok, CALL, ONEWAY in *; lia).
  destruct (mr_begin L name type seqid tail tt io 0 I Hn Hmt Hq Logic.I) as ([] & i2 & E2 & Hi2).
  cbn in Hi2. subst i2. change (ml_hdr L) with (sb_message (strictWrite cf)) in E2.
  unfold process, bind, on_in. cbn [s_in s_out s_sent s_h]. rewrite E2.
  cbn [s_in s_out s_sent s_h]. unfold decorated.
  pose proof (dispatch_depth (binary cf) env (handlers None) F ms (name, type, seqid)
    (binary_reads cf) ltac:(intros s; repeat split; exists []; reflexivity)
    (mkss (mkst tt tail io 0) so sent h)) as Hd.
  destruct (dispatch _ _ _ _ _ _ _) as [r [[[] i o d] so' sent' h']].
  cbn [snd s_in depth s_out s_sent s_h px inp out undeco_binary] in *. subst d. reflexivity.
Qed.

Theorem C28_default_compact : forall cf SL CL env H
    (handlers : option (list Z) -> list Z -> list (option value) -> H -> hres * H)
    F svcs ms name type seqid tail x io so sent h,
  c_limits cf SL CL -> c_ready x -> ~ In 58 name -> name_ok SL name ->
  type = CALL \/ type = ONEWAY -> seq_ok seqid ->
  let m := mux_process (compact cf) env handlers undeco_compact F (Some ms) svcs
    (mkss (mkst x (sc_message name type seqid ++ tail) io 0) so sent h) in
  let p := process (compact cf) env (handlers None) F ms
    (mkss (mkst x (sc_message name type seqid ++ tail) io 0) so sent h) in
  fst m = fst p /\ inp (s_in (snd m)) = inp (s_in (snd p))
  /\ s_out (snd m) = s_out (snd p) /\ s_sent (snd m) = s_sent (snd p)
  /\ s_h (snd m) = s_h (snd p) /\ state (px (s_in (snd m))) = CLEAR.
Proof.
  intros cf SL CL env H handlers F svcs ms name type seqid tail x io so sent h HL Hx Hc Hn
    Ht Hq m p. subst m p.
  assert (Hty : 0 <= type <= 7) by (unfold CALL, ONEWAY in Ht; lia).
  unfold mux_process, process, bind, on_in. cbn [s_in s_out s_sent s_h].
  change (readMessageBegin (compact cf)) with (c_readMessageBegin cf).
  rewrite !(c_readMessage_ok cf SL CL) by (assumption || apply Hx).
  cbn [s_in s_out s_sent s_h].
  destruct (negb (type =? CALL) && negb (type =? ONEWAY)) eqn:Et; [exfalso; lia|].
  rewrite split_none by assumption. unfold decorated.
  destruct (dispatch _ _ _ _ _ _ _) as [r s'].
  cbn [fst snd s_in s_out s_sent s_h inp px undeco_compact state].
  repeat split. apply Hx.
Qed.

(** Unknown services, a missing default processor and message types other than
    CALL and ONEWAY are refused, and nothing is called or written. *)
Definition refused (default : option (list method)) (svcs : list (list Z * list method))
    (name : list Z) (type : Z) : Prop :=
  (type <> CALL /\ type <> ONEWAY)
  \/ (~ In 58 name /\ default = None)
  \/ (exists svc call, name = svc ++ [58] ++ call /\ ~ In 58 svc
        /\ find_service svc svcs = None).

Theorem C28_refused_binary : forall cf SL CL env H
    (handlers : option (list Z) -> list Z -> list (option value) -> H -> hres * H)
    F default svcs name type seqid tail io so sent h,
  b_limits cf SL CL -> strict_ok cf -> name_ok SL name -> mtype_ok type -> seq_ok seqid ->
  refused default svcs name type ->
  exists s', mux_process (binary cf) env handlers undeco_binary F default svcs
      (mkss (mkst tt (sb_message (strictWrite cf) name type seqid ++ tail) io 0) so sent h)
    = (Raise (EProtocol TP_NOT_IMPLEMENTED), s')
    /\ s_out s' = so /\ s_sent s' = sent /\ s_h s' = h.
Proof.
  intros cf SL CL env H handlers F default svcs name type seqid tail io so sent h HL Hs Hn Ht Hq Hr.
  exact (mux_refused (binary_mlaws cf SL CL HL Hs) env handlers undeco_binary F default svcs
    name type seqid tail tt io so sent h I Hn Ht Hq Hr Logic.I).
Qed.

Theorem C28_refused_compact : forall cf SL CL env H
    (handlers : option (list Z) -> list Z -> list (option value) -> H -> hres * H)
    F default svcs name type seqid tail x io so sent h,
  c_limits cf SL CL -> c_ready x -> name_ok SL name -> mtype_ok type -> seq_ok seqid ->
  refused default svcs name type ->
  exists s', mux_process (compact cf) env handlers undeco_compact F default svcs
      (mkss (mkst x (sc_message name type seqid ++ tail) io 0) so sent h)
    = (Raise (EProtocol TP_NOT_IMPLEMENTED), s')
    /\ s_out s' = so /\ s_sent s' = sent /\ s_h s' = h.
Proof.
  intros cf SL CL env H handlers F default svcs name type seqid tail x io so sent h HL Hx Hn Ht Hq Hr.
  exact (mux_refused (compact_mlaws cf SL CL HL) env handlers undeco_compact F default svcs
    name type seqid tail x io so sent h Hx Hn Ht Hq Hr Logic.I).
Qed.

(** Without the condition on colons the property fails: services "a:b" and "a"
    both registered, the client of "a:b" calls "f" and reaches method "b:f" of
    "a" (here: unknown there, and the handler of "a:b" is not called). *)
Theorem C28_colon_refuted : exists svc name svcs ms,
  find_service svc svcs = Some ms
  /\ lookup name ms <> None
  /\ let run m := snd (m (mkss (mkst tt (sb_message true (svc ++ [58] ++ name) CALL 0
                          ++ [x00]) [] 0) (mkst tt [] [] 0) [] 0)) in
     let direct m := snd (m (mkss (mkst tt (sb_message true name CALL 0 ++ [x00]) [] 0)
                          (mkst tt [] [] 0) [] 0)) in
     s_h (run (mux_process (binary bdefault) rpc_env (fun _ => rpc_handler)
                 undeco_binary 100 None svcs))
     <> s_h (direct (process (binary bdefault) rpc_env rpc_handler 100 ms)).
Proof.
  exists (lit "a:b"), (lit "ping"), [(lit "a:b", rpc_ms); (lit "a", [])], rpc_ms.
  vm_compute. repeat split; discriminate.
Qed.

Example C28_ex :
  let svcs := [(lit "a", []); (lit "calc", rpc_ms)] in
  find_service (lit "calc") svcs = Some rpc_ms
  /\ ~ In 58 (lit "calc")
  /\ name_ok 100 (lit "calc" ++ [58] ++ lit "add")
  /\ refused None svcs (lit "other:add") CALL
  /\ s_h (snd (mux_process (binary bdefault) rpc_env (fun _ => rpc_handler) undeco_binary
       100 None svcs
       (mkss (mkst tt (b_msg true (lit "calc:add") CALL 7 rpc_env 0
                        (VStruct 0 [Some (VInt 5); None])) [] 0)
             (mkst tt [] [] 0) [] 3))) = 4.
Proof.
  split; [reflexivity|]. split; [cbn; intuition discriminate|].
  split; [reflexivity|]. split; [|reflexivity].
  right. right. exists (lit "other"), (lit "add"). split; [reflexivity|].
  split; [cbn; intuition discriminate|reflexivity].
Qed.

(** * C29 *)

(** What kind of object a reply carries. *)
Definition payload_ok (env : schema) (SL CL : Z) (m : method) (type : Z)
    (e : schema) (n : nat) (v : value) : Prop :=
  wf e SL CL (TStruct n) v = true /\
  if type =? EXCEPTION then e = app_env /\ n = O else e = env /\ n = m_result m.

(** A two-way method: whatever the handler does (other than a transport error
    or an object that cannot be encoded) the request is consumed exactly and
    one message is sent, with its name and sequence id, REPLY for a result or
    declared exception and EXCEPTION otherwise. *)
Theorem C29_two_way_binary : forall cf SL CL env H
    (handler : list Z -> list (option value) -> H -> hres * H)
    ms m args type seqid tail io oi sent h h' r F,
  b_limits cf SL CL -> strict_ok cf -> 14 <= SL ->
  schema_ok env -> schema_closed env = true ->
  lookup (m_name m) ms = Some m -> m_oneway m = false -> method_ok env m ->
  name_ok SL (m_name m) -> mtype_ok type -> seq_ok seqid ->
  sendable env SL CL (m_args m) args ->
  handler (m_name m) (received env (m_args m) args) h = (r, h') ->
  handler_ok env SL CL m r -> (forall t, r <> HTransport t) ->
  let req := b_msg (strictWrite cf) (m_name m) type seqid env (m_args m)
               (VStruct (m_args m) args) in
  (length req <= F)%nat ->
  exists rtype e n v,
    process (binary cf) env handler F ms
      (mkss (mkst tt (req ++ tail) io 0) (mkst tt oi [] 0) sent h)
    = (Ok tt, mkss (mkst tt tail io 0) (mkst tt oi [] 0)
         (sent ++ [b_msg (strictWrite cf) (m_name m) rtype seqid e n v]) h')
    /\ payload_ok env SL CL m rtype e n v
    /\ rtype = match r with
               | HReturn _ => REPLY
               | HRaise (VStruct c _) =>
                   if existsb (fun x => Nat.eqb c (snd x)) (m_xs m) then REPLY else EXCEPTION
               | _ => EXCEPTION
               end.
Proof.
  intros cf SL CL env H handler ms m args type seqid tail io oi sent h h' r F
    HL Hs HSL He Hc Hl Ho Hm Hn Ht Hq Ha Hr Hh Htr req HF.
  set (L := binary_mlaws cf SL CL HL Hs).
  destruct (process_request L env He Hc handler ms m type args seqid tail io oi [] tt tt
    sent h h' r F HSL I I Hl Hn Ht Hq Ha Hr Ho Hm Hh Htr) as (e & n & v & Er & s' & Ep & Hl').
  { unfold L. rewrite b_msg_eq. exact HF. }
  subst L. rewrite b_msg_eq in Ep. fold req in Ep.
  destruct Hl' as ([] & [] & -> & _ & _). rewrite b_msg_eq in Ep. cbn [app] in Ep.
  exists (reply_type m r), e, n, v. split; [exact Ep|].
  destruct (reply_for_ok (fun _ => true) env SL CL m Hm HSL He Hc r Hh Htr)
    as (e' & n' & v' & Er' & _ & _ & Hwf & _ & _ & Hk).
  assert (e' = e /\ n' = n /\ v' = v) as (-> & -> & ->) by (repeat split; congruence).
  split; [|destruct r as [w|[]| | |]; reflexivity].
  split; [exact Hwf|]. destruct (reply_type m r =? EXCEPTION); tauto.
Qed.

Theorem C29_two_way_compact : forall cf SL CL env H
    (handler : list Z -> list (option value) -> H -> hres * H)
    ms m args type seqid tail io oi xi xo sent h h' r F,
  c_limits cf SL CL -> c_ready xi -> c_ready xo -> 14 <= SL ->
  schema_ok env -> schema_closed env = true ->
  lookup (m_name m) ms = Some m -> m_oneway m = false -> method_ok env m ->
  name_ok SL (m_name m) -> mtype_ok type -> seq_ok seqid ->
  sendable env SL CL (m_args m) args ->
  handler (m_name m) (received env (m_args m) args) h = (r, h') ->
  handler_ok env SL CL m r -> (forall t, r <> HTransport t) ->
  let req := c_msg (m_name m) type seqid env (m_args m) (VStruct (m_args m) args) in
  (length req <= F)%nat ->
  exists rtype e n v xi' xo',
    process (compact cf) env handler F ms
      (mkss (mkst xi (req ++ tail) io 0) (mkst xo oi [] 0) sent h)
    = (Ok tt, mkss (mkst xi' tail io 0) (mkst xo' oi [] 0)
         (sent ++ [c_msg (m_name m) rtype seqid e n v]) h')
    /\ c_ready xi' /\ c_ready xo'
    /\ payload_ok env SL CL m rtype e n v
    /\ rtype = match r with
               | HReturn _ => REPLY
               | HRaise (VStruct c _) =>
                   if existsb (fun x => Nat.eqb c (snd x)) (m_xs m) then REPLY else EXCEPTION
               | _ => EXCEPTION
               end.
Proof.
  intros cf SL CL env H handler ms m args type seqid tail io oi xi xo sent h h' r F
    HL Hxi Hxo HSL He Hc Hl Ho Hm Hn Ht Hq Ha Hr Hh Htr req HF.
  set (L := compact_mlaws cf SL CL HL).
  destruct (process_request L env He Hc handler ms m type args seqid tail io oi [] xi xo
    sent h h' r F HSL Hxi Hxo Hl Hn Ht Hq Ha Hr Ho Hm Hh Htr)
    as (e & n & v & Er & s' & Ep & Hl').
  { unfold L. rewrite c_msg_eq. exact HF. }
  subst L. rewrite c_msg_eq in Ep. fold req in Ep.
  destruct Hl' as (xi' & xo' & -> & Hxi' & Hxo'). rewrite c_msg_eq in Ep. cbn [app] in Ep.
  exists (reply_type m r), e, n, v, xi', xo'. split; [exact Ep|].
  split; [exact Hxi'|]. split; [exact Hxo'|].
  destruct (reply_for_ok (fun _ => true) env SL CL m Hm HSL He Hc r Hh Htr)
    as (e' & n' & v' & Er' & _ & _ & Hwf & _ & _ & Hk).
  assert (e' = e /\ n' = n /\ v' = v) as (-> & -> & ->) by (repeat split; congruence).
  split; [|destruct r as [w|[]| | |]; reflexivity].
  split; [exact Hwf|]. destruct (reply_type m r =? EXCEPTION); tauto.
Qed.

(** A one-way method writes nothing, whatever the handler does. *)
Theorem C29_one_way_binary : forall cf SL CL env H
    (handler : list Z -> list (option value) -> H -> hres * H)
    ms m args type seqid tail io oi oo sent h h' r F,
  b_limits cf SL CL -> strict_ok cf -> schema_ok env -> schema_closed env = true ->
  lookup (m_name m) ms = Some m -> m_oneway m = true ->
  name_ok SL (m_name m) -> mtype_ok type -> seq_ok seqid ->
  sendable env SL CL (m_args m) args ->
  handler (m_name m) (received env (m_args m) args) h = (r, h') ->
  (forall t, r <> HTransport t) ->
  let req := b_msg (strictWrite cf) (m_name m) type seqid env (m_args m)
               (VStruct (m_args m) args) in
  (length req <= F)%nat ->
  process (binary cf) env handler F ms
    (mkss (mkst tt (req ++ tail) io 0) (mkst tt oi oo 0) sent h)
  = (Ok tt, mkss (mkst tt tail io 0) (mkst tt oi oo 0) sent h').
Proof.
  intros cf SL CL env H handler ms m args type seqid tail io oi oo sent h h' r F
    HL Hs He Hc Hl Ho Hn Ht Hq Ha Hr Htr req HF.
  set (L := binary_mlaws cf SL CL HL Hs).
  destruct (process_request_one_way L env He Hc handler ms m type args seqid tail io oi oo
    tt tt sent h h' r F I I Hl Hn Ht Hq Ha Hr Ho Htr) as ([] & E & _).
  { unfold L. rewrite b_msg_eq. exact HF. }
  unfold L in E. rewrite b_msg_eq in E. exact E.
Qed.

Theorem C29_one_way_compact : forall cf SL CL env H
    (handler : list Z -> list (option value) -> H -> hres * H)
    ms m args type seqid tail io oi oo xi xo sent h h' r F,
  c_limits cf SL CL -> c_ready xi -> c_ready xo -> schema_ok env -> schema_closed env = true ->
  lookup (m_name m) ms = Some m -> m_oneway m = true ->
  name_ok SL (m_name m) -> mtype_ok type -> seq_ok seqid ->
  sendable env SL CL (m_args m) args ->
  handler (m_name m) (received env (m_args m) args) h = (r, h') ->
  (forall t, r <> HTransport t) ->
  let req := c_msg (m_name m) type seqid env (m_args m) (VStruct (m_args m) args) in
  (length req <= F)%nat ->
  exists xi', process (compact cf) env handler F ms
    (mkss (mkst xi (req ++ tail) io 0) (mkst xo oi oo 0) sent h)
  = (Ok tt, mkss (mkst xi' tail io 0) (mkst xo oi oo 0) sent h') /\ c_ready xi'.
Proof.
  intros cf SL CL env H handler ms m args type seqid tail io oi oo xi xo sent h h' r F
    HL Hxi Hxo He Hc Hl Ho Hn Ht Hq Ha Hr Htr req HF.
  set (L := compact_mlaws cf SL CL HL).
  destruct (process_request_one_way L env He Hc handler ms m type args seqid tail io oi oo
    xi xo sent h h' r F Hxi Hxo Hl Hn Ht Hq Ha Hr Ho Htr) as (xi' & E & Hx').
  { unfold L. rewrite c_msg_eq. exact HF. }
  unfold L in E. rewrite c_msg_eq in E. exists xi'. split; [exact E|exact Hx'].
Qed.

(** An unknown method, one-way or not, gets one exception reply, its arguments
    are consumed whatever struct they are, and no handler is called. *)
Theorem C29_unknown_binary : forall cf SL CL env H
    (handler : list Z -> list (option value) -> H -> hres * H)
    ms name type seqid e n args tail io oi sent h F,
  b_limits cf SL CL -> strict_ok cf ->
  lookup name ms = None -> name_ok SL name -> mtype_ok type -> seq_ok seqid ->
  name_ok SL (lit "Unknown function " ++ name) ->
  schema_ok e -> wf e SL CL (TStruct n) (VStruct n args) = true ->
  (vdepth (VStruct n args) <= 64)%nat -> all_bin utf8_valid (VStruct n args) = true ->
  let req := b_msg (strictWrite cf) name type seqid e n (VStruct n args) in
  (length req <= F)%nat ->
  process (binary cf) env handler F ms
    (mkss (mkst tt (req ++ tail) io 0) (mkst tt oi [] 0) sent h)
  = (Ok tt, mkss (mkst tt tail io 0) (mkst tt oi [] 0)
      (sent ++ [b_msg (strictWrite cf) name EXCEPTION seqid app_env 0
                  (VStruct 0 [Some (VStr (lit "Unknown function " ++ name));
                              Some (VInt 1)])]) h).
Proof.
  intros cf SL CL env H handler ms name type seqid e n args tail io oi sent h F
    HL Hs Hl Hn Ht Hq Hu He Hwf Hd Hb req HF.
  set (L := binary_mlaws cf SL CL HL Hs).
  destruct (process_request_unknown L env handler ms name type seqid e n args tail io oi []
    tt tt sent h F I I Hl Hn Ht Hq Hu He Hwf Hd Hb) as (s' & E & ([] & [] & -> & _)).
  { unfold L. rewrite b_msg_eq. exact HF. }
  unfold L in E. rewrite !b_msg_eq in E. exact E.
Qed.

Theorem C29_unknown_compact : forall cf SL CL env H
    (handler : list Z -> list (option value) -> H -> hres * H)
    ms name type seqid e n args tail io oi xi xo sent h F,
  c_limits cf SL CL -> c_ready xi -> c_ready xo ->
  lookup name ms = None -> name_ok SL name -> mtype_ok type -> seq_ok seqid ->
  name_ok SL (lit "Unknown function " ++ name) ->
  schema_ok e -> wf e SL CL (TStruct n) (VStruct n args) = true ->
  (vdepth (VStruct n args) <= 64)%nat -> all_bin utf8_valid (VStruct n args) = true ->
  let req := c_msg name type seqid e n (VStruct n args) in
  (length req <= F)%nat ->
  exists xi' xo', process (compact cf) env handler F ms
    (mkss (mkst xi (req ++ tail) io 0) (mkst xo oi [] 0) sent h)
  = (Ok tt, mkss (mkst xi' tail io 0) (mkst xo' oi [] 0)
      (sent ++ [c_msg name EXCEPTION seqid app_env 0
                  (VStruct 0 [Some (VStr (lit "Unknown function " ++ name));
                              Some (VInt 1)])]) h)
  /\ c_ready xi' /\ c_ready xo'.
Proof.
  intros cf SL CL env H handler ms name type seqid e n args tail io oi xi xo sent h F
    HL Hxi Hxo Hl Hn Ht Hq Hu He Hwf Hd Hb req HF.
  set (L := compact_mlaws cf SL CL HL).
  destruct (process_request_unknown L env handler ms name type seqid e n args tail io oi []
    xi xo sent h F Hxi Hxo Hl Hn Ht Hq Hu He Hwf Hd Hb) as (s' & E & (xi' & xo' & -> & Hr)).
  { unfold L. rewrite c_msg_eq. exact HF. }
  unfold L in E. rewrite !c_msg_eq in E. exists xi', xo'. split; [exact E|exact Hr].
Qed.

(** A TTransportException from the handler is re-raised with nothing written. *)
Theorem C29_transport_error_binary : forall cf SL CL env H
    (handler : list Z -> list (option value) -> H -> hres * H)
    ms m args type seqid tail io oi oo sent h h' t F,
  b_limits cf SL CL -> strict_ok cf -> schema_ok env -> schema_closed env = true ->
  lookup (m_name m) ms = Some m ->
  name_ok SL (m_name m) -> mtype_ok type -> seq_ok seqid ->
  sendable env SL CL (m_args m) args ->
  handler (m_name m) (received env (m_args m) args) h = (HTransport t, h') ->
  let req := b_msg (strictWrite cf) (m_name m) type seqid env (m_args m)
               (VStruct (m_args m) args) in
  (length req <= F)%nat ->
  process (binary cf) env handler F ms
    (mkss (mkst tt (req ++ tail) io 0) (mkst tt oi oo 0) sent h)
  = (Raise (ETransport t), mkss (mkst tt tail io 0) (mkst tt oi oo 0) sent h').
Proof.
  intros cf SL CL env H handler ms m args type seqid tail io oi oo sent h h' t F
    HL Hs He Hc Hl Hn Ht Hq Ha Hr req HF.
  set (L := binary_mlaws cf SL CL HL Hs).
  destruct (process_header L env handler ms F (m_name m) type seqid env (m_args m)
    (VStruct (m_args m) args) tail tt io (mkst tt oi oo 0) sent h I Hn Ht Hq)
    as ([] & i' & E & Hi).
  unfold L in E. rewrite b_msg_eq in E. unfold req. rewrite E.
  unfold dispatch. rewrite Hl.
  destruct (process_transport L env He Hc handler m args seqid Ha tail io oi tt tt i'
    sent h h' (HTransport t) F Hi Hr) with (oo := oo) (t := t) as ([] & E2 & _);
    [|reflexivity|exact E2].
  unfold request_body. cbn [ml_body ml_end L binary_mlaws]. rewrite app_nil_r.
  unfold req, b_msg in HF. rewrite app_length in HF. lia.
Qed.

Theorem C29_transport_error_compact : forall cf SL CL env H
    (handler : list Z -> list (option value) -> H -> hres * H)
    ms m args type seqid tail io oi oo xi xo sent h h' t F,
  c_limits cf SL CL -> c_ready xi -> schema_ok env -> schema_closed env = true ->
  lookup (m_name m) ms = Some m ->
  name_ok SL (m_name m) -> mtype_ok type -> seq_ok seqid ->
  sendable env SL CL (m_args m) args ->
  handler (m_name m) (received env (m_args m) args) h = (HTransport t, h') ->
  let req := c_msg (m_name m) type seqid env (m_args m) (VStruct (m_args m) args) in
  (length req <= F)%nat ->
  exists xi', process (compact cf) env handler F ms
    (mkss (mkst xi (req ++ tail) io 0) (mkst xo oi oo 0) sent h)
  = (Raise (ETransport t), mkss (mkst xi' tail io 0) (mkst xo oi oo 0) sent h')
  /\ c_ready xi'.
Proof.
  intros cf SL CL env H handler ms m args type seqid tail io oi oo xi xo sent h h' t F
    HL Hxi He Hc Hl Hn Ht Hq Ha Hr req HF.
  set (L := compact_mlaws cf SL CL HL).
  destruct (process_header L env handler ms F (m_name m) type seqid env (m_args m)
    (VStruct (m_args m) args) tail xi io (mkst xo oi oo 0) sent h Hxi Hn Ht Hq)
    as (x1 & i' & E & Hi).
  unfold L in E. rewrite c_msg_eq in E. unfold req. rewrite E.
  unfold dispatch. rewrite Hl.
  destruct (process_transport L env He Hc handler m args seqid Ha tail io oi x1 xo i'
    sent h h' (HTransport t) F Hi Hr) with (oo := oo) (t := t) as (x2 & E2 & Hx2);
    [|reflexivity|exists x2; split; [exact E2|exact Hx2]].
  unfold request_body. cbn [ml_body ml_end L compact_mlaws]. rewrite app_nil_r.
  unfold req, c_msg in HF. rewrite app_length in HF. lia.
Qed.

(** Without the condition that the handler's result can be encoded, the
    property fails: the handler of a two-way method returns a number out of
    range; nothing is sent, and the output buffer is left with the beginning
    of a reply, which will go out in front of the next one. *)
Theorem C29_unencodable_refuted : exists m args handler,
  lookup (m_name m) [m] = Some m /\ m_oneway m = false /\ method_ok rpc_env m
  /\ sendable rpc_env 100 100 (m_args m) args /\
  let p := process (H := unit) (binary bdefault) rpc_env handler 100 [m]
    (mkss (mkst tt (b_msg true (m_name m) CALL 7 rpc_env (m_args m)
            (VStruct (m_args m) args)) [] 0) (mkst tt [] [] 0) [] tt) in
  fst p = Raise EStructError /\ s_sent (snd p) = [] /\ out (s_out (snd p)) <> [].
Proof.
  exists rpc_add, [Some (VInt 1); Some (VInt 2)],
    (fun _ _ h => (HReturn (Some (VInt 2147483648)), h)).
  split; [reflexivity|]. split; [reflexivity|]. split; [reflexivity|].
  split; [apply rpc_add_sendable; lia|].
  split; [|split]; vm_compute; [reflexivity|reflexivity|discriminate].
Qed.

Example C29_ex : exists m args,
  lookup (m_name m) rpc_ms = Some m /\ m_oneway m = false /\ method_ok rpc_env m
  /\ name_ok 100 (m_name m) /\ sendable rpc_env 100 100 (m_args m) args
  /\ rpc_handler (m_name m) (received rpc_env (m_args m) args) 3
     = (HRaise (VStruct 2 [Some (VStr (lit "neg"))]), 4)
  /\ handler_ok rpc_env 100 100 m (HRaise (VStruct 2 [Some (VStr (lit "neg"))]))
  /\ reply_type m (HRaise (VStruct 2 [Some (VStr (lit "neg"))])) = REPLY
  /\ received rpc_env (m_args m) args = [Some (VInt (-5)); Some (VInt 10)].
Proof.
  exists rpc_add, [Some (VInt (-5)); None].
  repeat split; try reflexivity; try (cbn; lia).
Qed.

(** * C30 *)

(** A call on a service whose two ends are idle: the caller gets what
    [expected] says of what the handler did with the same arguments (unset
    arguments having become their defaults), and both ends are idle again. *)
Theorem C30_call_binary : forall cf SL CL env H
    (handler : list Z -> list (option value) -> H -> hres * H) ms m args h h' r,
  b_limits cf SL CL -> strict_ok cf -> 14 <= SL ->
  schema_ok env -> schema_closed env = true -> service_ok env SL ms ->
  In m ms -> sendable env SL CL (m_args m) args ->
  handler (m_name m) (received env (m_args m) args) h = (r, h') ->
  (m_oneway m = false -> handler_ok env SL CL m r) -> (forall t, r <> HTransport t) ->
  let idle h := (mkcs (mkst tt [] [] 0) [],
                 mkss (mkst tt [] [] 0) (mkst tt [] [] 0) [] h) in
  call (binary cf) env handler ms m args (idle h)
  = (Ok (if m_oneway m then CReturn None else expected env m r), idle h').
Proof.
  intros cf SL CL env H handler ms m args h h' r HL Hs HSL He Hc Hms Hi Ha Hr Hh Htr idle.
  destruct (call_ok (binary_mlaws cf SL CL HL Hs) env He Hc handler ms Hms HSL m args h h' r
    (idle h) Hi Ha Hr Hh Htr) as (y' & E & ([] & [] & [] & -> & _)).
  { exists tt, tt, tt. repeat split. }
  exact E.
Qed.

Theorem C30_call_compact : forall cf SL CL env H
    (handler : list Z -> list (option value) -> H -> hres * H) ms m args h h' r xc xi xo,
  c_limits cf SL CL -> c_ready xc -> c_ready xi -> c_ready xo -> 14 <= SL ->
  schema_ok env -> schema_closed env = true -> service_ok env SL ms ->
  In m ms -> sendable env SL CL (m_args m) args ->
  handler (m_name m) (received env (m_args m) args) h = (r, h') ->
  (m_oneway m = false -> handler_ok env SL CL m r) -> (forall t, r <> HTransport t) ->
  let idle xc xi xo h := (mkcs (mkst xc [] [] 0) [],
                          mkss (mkst xi [] [] 0) (mkst xo [] [] 0) [] h) in
  exists xc' xi' xo',
    call (compact cf) env handler ms m args (idle xc xi xo h)
    = (Ok (if m_oneway m then CReturn None else expected env m r), idle xc' xi' xo' h')
    /\ c_ready xc' /\ c_ready xi' /\ c_ready xo'.
Proof.
  intros cf SL CL env H handler ms m args h h' r xc xi xo HL Hxc Hxi Hxo HSL He Hc Hms Hi Ha
    Hr Hh Htr idle.
  destruct (call_ok (compact_mlaws cf SL CL HL) env He Hc handler ms Hms HSL m args h h' r
    (idle xc xi xo h) Hi Ha Hr Hh Htr) as (y' & E & (xc' & xi' & xo' & -> & Hx)).
  { exists xc, xi, xo. repeat split; try apply Hxc; try apply Hxi; apply Hxo. }
  exists xc', xi', xo'. split; [exact E|exact Hx].
Qed.

(** [expected], spelled out. *)
Theorem C30_returned : forall env m t v, m_ret m = Some t ->
  no_missing_default env t v = true -> (exists SL CL, wf env SL CL t v = true) ->
  expected env m (HReturn (Some v)) = CReturn (Some v).
Proof.
  intros env m t v Hm Hn (SL & CL & Hwf). cbn [expected]. rewrite Hm.
  rewrite (with_defaults_id env v t SL CL Hwf Hn). reflexivity.
Qed.
Theorem C30_void : forall env m v, m_ret m = None ->
  expected env m (HReturn v) = CReturn None.
Proof. intros env m v Hm. cbn [expected]. rewrite Hm. reflexivity. Qed.
Theorem C30_declared : forall env m c fs, In c (map snd (m_xs m)) ->
  no_missing_default env (TStruct c) (VStruct c fs) = true ->
  (exists SL CL, wf env SL CL (TStruct c) (VStruct c fs) = true) ->
  expected env m (HRaise (VStruct c fs)) = CThrow (VStruct c fs).
Proof.
  intros env m c fs Hi Hn (SL & CL & Hwf). unfold expected.
  assert (E : declared m (VStruct c fs) = true).
  { cbn [declared]. apply existsb_exists. apply in_map_iff in Hi as (x & <- & Hx).
    exists x. split; [exact Hx|apply Nat.eqb_refl]. }
  rewrite E. cbn [class_of]. rewrite (with_defaults_id env _ _ SL CL Hwf Hn). reflexivity.
Qed.
Theorem C30_undeclared : forall env m c fs, ~ In c (map snd (m_xs m)) ->
  expected env m (HRaise (VStruct c fs))
  = CApp (Some (VInt TA_INTERNAL_ERROR)) (Some (VStr (lit "Internal error"))).
Proof.
  intros env m c fs Hi. unfold expected.
  destruct (declared m (VStruct c fs)) eqn:E; [|reflexivity].
  exfalso. apply Hi. exact (declared_In _ _ _ E).
Qed.
Theorem C30_application : forall env m t msg,
  expected env m (HApp t msg) = CApp (Some (VInt t)) (option_map VStr msg)
  /\ expected env m HOther
     = CApp (Some (VInt TA_INTERNAL_ERROR)) (Some (VStr (lit "Internal error"))).
Proof. intros. split; reflexivity. Qed.

Example C30_ex :
  service_ok rpc_env 100 rpc_ms /\ In rpc_add rpc_ms
  /\ sendable rpc_env 100 100 0 [Some (VInt 5); None]
  /\ map fst (map (fun a => call (binary bdefault) rpc_env rpc_handler rpc_ms rpc_add
                              [Some (VInt a); None] (b_sys 0)) [5; -5; 0])
     = [Ok (CReturn (Some (VInt 15)));
        Ok (CThrow (VStruct 2 [Some (VStr (lit "neg"))]));
        Ok (CApp (Some (VInt 6)) (Some (VStr (lit "Internal error"))))].
Proof.
  split; [apply rpc_service_ok; lia|]. split; [cbn; auto|].
  split; [split; [reflexivity|cbn; lia]|vm_compute; reflexivity].
Qed.

(** * C31 *)

(** Any sequence of calls: every caller gets the outcome of its own request. *)
Theorem C31_history_binary : forall cf SL CL env H
    (handler : list Z -> list (option value) -> H -> hres * H) ms l h,
  b_limits cf SL CL -> strict_ok cf -> 14 <= SL ->
  schema_ok env -> schema_closed env = true -> service_ok env SL ms ->
  (forall m args, In (m, args) l -> In m ms /\ sendable env SL CL (m_args m) args) ->
  good_history env handler SL CL l h ->
  let idle h := (mkcs (mkst tt [] [] 0) [],
                 mkss (mkst tt [] [] 0) (mkst tt [] [] 0) [] h) in
  calls (binary cf) env handler ms l (idle h)
  = (fst (reference env handler l h), idle (snd (reference env handler l h))).
Proof.
  intros cf SL CL env H handler ms l h HL Hs HSL He Hc Hms Hall Hg idle.
  destruct (calls_ok (binary_mlaws cf SL CL HL Hs) env He Hc handler ms Hms HSL l h
    (idle h) Hall Hg) as (y' & E & ([] & [] & [] & -> & _)).
  { exists tt, tt, tt. repeat split. }
  exact E.
Qed.

Theorem C31_history_compact : forall cf SL CL env H
    (handler : list Z -> list (option value) -> H -> hres * H) ms l h,
  c_limits cf SL CL -> 14 <= SL ->
  schema_ok env -> schema_closed env = true -> service_ok env SL ms ->
  (forall m args, In (m, args) l -> In m ms /\ sendable env SL CL (m_args m) args) ->
  good_history env handler SL CL l h ->
  let idle xc xi xo h := (mkcs (mkst xc [] [] 0) [],
                          mkss (mkst xi [] [] 0) (mkst xo [] [] 0) [] h) in
  exists xc xi xo,
  calls (compact cf) env handler ms l (idle c_init c_init c_init h)
  = (fst (reference env handler l h), idle xc xi xo (snd (reference env handler l h))).
Proof.
  intros cf SL CL env H handler ms l h HL HSL He Hc Hms Hall Hg idle.
  destruct (calls_ok (compact_mlaws cf SL CL HL) env He Hc handler ms Hms HSL l h
    (idle c_init c_init c_init h) Hall Hg) as (y' & E & (xc & xi & xo & -> & _)).
  { exists c_init, c_init, c_init. repeat split. }
  exists xc, xi, xo. exact E.
Qed.

(** The defect: after a call that gave up waiting, the next call of the same
    method returns the first one's result, whatever the arguments were; and
    the second result is now the one left over. *)
Theorem C31_stale_binary : forall cf SL CL env H
    (handler : list Z -> list (option value) -> H -> hres * H) ms m a1 a2 h h1 h2 r1 r2,
  b_limits cf SL CL -> strict_ok cf -> 14 <= SL ->
  schema_ok env -> schema_closed env = true -> service_ok env SL ms ->
  In m ms -> m_oneway m = false ->
  sendable env SL CL (m_args m) a1 -> sendable env SL CL (m_args m) a2 ->
  handler (m_name m) (received env (m_args m) a1) h = (r1, h1) ->
  handler (m_name m) (received env (m_args m) a2) h1 = (r2, h2) ->
  handler_ok env SL CL m r1 -> (forall t, r1 <> HTransport t) ->
  handler_ok env SL CL m r2 -> (forall t, r2 <> HTransport t) ->
  let idle h := (mkcs (mkst tt [] [] 0) [],
                 mkss (mkst tt [] [] 0) (mkst tt [] [] 0) [] h) in
  exists y1 y2, call_late (binary cf) env handler ms m a1 (idle h) = (Raise EEOFError, y1)
    /\ call (binary cf) env handler ms m a2 y1 = (Ok (expected env m r1), y2)
    /\ fst (recv (binary cf) env (length (inp (cl (fst y2)))) m (fst y2))
       = Ok (expected env m r2).
Proof.
  intros cf SL CL env H handler ms m a1 a2 h h1 h2 r1 r2 HL Hs HSL He Hc Hms Hi Ho Ha1 Ha2
    Hr1 Hr2 Hh1 Ht1 Hh2 Ht2 idle.
  destruct (stale (binary_mlaws cf SL CL HL Hs) env He Hc handler ms Hms HSL
    EEOFError (fun x o d _ => ex_intro _ x (conj eq_refl Logic.I)) m a1 a2 h h1 h2 r1 r2 (idle h) Hi Ho Ha1 Ha2 Hr1 Hr2 Hh1 Ht1
    Hh2 Ht2) as (y1 & y2 & E1 & E2 & (x & rp & E3 & Hx & Hrp)).
  { exists tt, tt, tt. repeat split. }
  exists y1, y2. split; [exact E1|]. split; [exact E2|].
  destruct (fst y2) as [c sent]. cbn [cl] in E3. subst c. cbn [cl inp].
  destruct (Hrp x [] sent (length rp) Hx (Nat.le_refl _)) as (x' & E & _).
  rewrite app_nil_r in E. rewrite E. reflexivity.
Qed.

Theorem C31_stale_compact : forall cf SL CL env H
    (handler : list Z -> list (option value) -> H -> hres * H) ms m a1 a2 h h1 h2 r1 r2,
  c_limits cf SL CL -> 14 <= SL ->
  schema_ok env -> schema_closed env = true -> service_ok env SL ms ->
  In m ms -> m_oneway m = false ->
  sendable env SL CL (m_args m) a1 -> sendable env SL CL (m_args m) a2 ->
  handler (m_name m) (received env (m_args m) a1) h = (r1, h1) ->
  handler (m_name m) (received env (m_args m) a2) h1 = (r2, h2) ->
  handler_ok env SL CL m r1 -> (forall t, r1 <> HTransport t) ->
  handler_ok env SL CL m r2 -> (forall t, r2 <> HTransport t) ->
  let idle h := (mkcs (mkst c_init [] [] 0) [],
                 mkss (mkst c_init [] [] 0) (mkst c_init [] [] 0) [] h) in
  exists y1 y2, call_late (compact cf) env handler ms m a1 (idle h) = (Raise EEOFError, y1)
    /\ call (compact cf) env handler ms m a2 y1 = (Ok (expected env m r1), y2)
    /\ fst (recv (compact cf) env (length (inp (cl (fst y2)))) m (fst y2))
       = Ok (expected env m r2).
Proof.
  intros cf SL CL env H handler ms m a1 a2 h h1 h2 r1 r2 HL HSL He Hc Hms Hi Ho Ha1 Ha2
    Hr1 Hr2 Hh1 Ht1 Hh2 Ht2 idle.
  assert (Hempty : forall x o d, c_ready x ->
    exists x', c_readMessageBegin cf (mkst x [] o d) = (Raise EEOFError, mkst x' [] o d)
      /\ c_ready x').
  { intros x o d Hr. exists x. split; [|exact Hr]. destruct Hr as (Hx & _). unfold c_readMessageBegin, assert_state, bind, get_px, assert_.
    cbn [px]. rewrite Hx. reflexivity. }
  destruct (stale (compact_mlaws cf SL CL HL) env He Hc handler ms Hms HSL
    EEOFError Hempty m a1 a2 h h1 h2 r1 r2 (idle h) Hi Ho Ha1 Ha2 Hr1 Hr2 Hh1 Ht1
    Hh2 Ht2) as (y1 & y2 & E1 & E2 & (x & rp & E3 & Hx & Hrp)).
  { exists c_init, c_init, c_init. repeat split. }
  exists y1, y2. split; [exact E1|]. split; [exact E2|].
  destruct (fst y2) as [c sent]. cbn [cl] in E3. subst c. cbn [cl inp].
  destruct (Hrp x [] sent (length rp) Hx (Nat.le_refl _)) as (x' & E & _).
  rewrite app_nil_r in E. rewrite E. reflexivity.
Qed.

(** So the property without the condition on earlier calls is false. *)
Theorem C31_timeout_refuted : exists m a1 a2,
  sendable rpc_env 100 100 (m_args m) a1 /\ sendable rpc_env 100 100 (m_args m) a2 /\
  let y1 := snd (call_late (binary bdefault) rpc_env rpc_handler rpc_ms m a1 (b_sys 0)) in
  fst (call (binary bdefault) rpc_env rpc_handler rpc_ms m a2 y1)
  <> fst (call (binary bdefault) rpc_env rpc_handler rpc_ms m a2 (b_sys 1)).
Proof.
  exists rpc_add, [Some (VInt 1); Some (VInt 2)], [Some (VInt 3); Some (VInt 4)].
  split; [apply rpc_add_sendable; lia|]. split; [apply rpc_add_sendable; lia|].
  vm_compute. discriminate.
Qed.

Example C31_ex :
  let l := [(rpc_add, [Some (VInt 1); None]); (rpc_ping, []);
            (rpc_add, [Some (VInt (-1)); Some (VInt 5)]); (rpc_add, [Some (VInt 3); None])] in
  good_history rpc_env rpc_handler 100 100 l 0
  /\ fst (calls (compact cdefault) rpc_env rpc_handler rpc_ms l (c_sys 0))
     = [Ok (CReturn (Some (VInt 11))); Ok (CReturn None);
        Ok (CThrow (VStruct 2 [Some (VStr (lit "neg"))])); Ok (CReturn (Some (VInt 13)))].
Proof.
  split; [|vm_compute; reflexivity].
  cbn [good_historyd rpc_handler received attrs with_defaults nth_error rpc_env m_args
       rpc_add rpc_ping m_name f_ty f_def].
  repeat split; intros; try discriminate; try (cbn; lia); reflexivity.
Qed.

(** * C32 *)

(** Binary: a call that fails while its arguments are encoded sends nothing,
    and leaves its header and part of its arguments in the buffer; the next
    call that can be encoded sends them in front of its own request. *)
Theorem C32_partial_bytes_binary : forall cf SL CL env m args i sent e s',
  b_limits cf SL CL -> strict_ok cf -> schema_ok env -> name_ok SL (m_name m) ->
  send (binary cf) env m args (mkcs (mkst tt i [] 0) sent) = (Raise e, s') ->
  exists part,
  let junk := sb_message (strictWrite cf) (m_name m)
                (if m_oneway m then ONEWAY else CALL) 0 ++ part in
  s' = mkcs (mkst tt i junk 0) sent
  /\ forall m2 args2, name_ok SL (m_name m2) -> sendable env SL CL (m_args m2) args2 ->
     send (binary cf) env m2 args2 s'
     = (Ok tt, mkcs (mkst tt i [] 0)
          (sent ++ [junk ++ b_msg (strictWrite cf) (m_name m2)
                      (if m_oneway m2 then ONEWAY else CALL) 0 env (m_args m2)
                      (VStruct (m_args m2) args2)])).
Proof.
  intros cf SL CL env m args i sent e s' HL Hs He Hn Hf.
  destruct (binary_send_failed cf SL CL HL env m args i [] sent e s' Hn Hf) as (part & ->).
  exists part. cbn [app]. split; [reflexivity|]. intros m2 args2 Hn2 [Hwf Hd].
  destruct (send_ok (binary_mlaws cf SL CL HL Hs) env He m2 args2 tt i
    (sb_message (strictWrite cf) (m_name m) (if m_oneway m then ONEWAY else CALL) 0 ++ part)
    sent I Hn2 Hwf Hd) as ([] & E & _). rewrite b_msg_eq in E. exact E.
Qed.

(** Compact: after such a failure every later call on the object fails with
    AssertionError, whatever it is, for ever. *)
Theorem C32_wedged_compact : forall cf SL CL env m args x i o sent e s',
  c_limits cf SL CL -> c_ready x -> name_ok SL (m_name m) ->
  send (compact cf) env m args (mkcs (mkst x i o 0) sent) = (Raise e, s') ->
  forall m2 args2, send (compact cf) env m2 args2 s' = (Raise EAssertion, s').
Proof.
  intros cf SL CL env m args x i o sent e s' HL Hx Hn Hf m2 args2.
  apply compact_send_busy.
  apply (compact_send_failed cf SL CL HL env m args x i o sent e s' Hx Hn);
    rewrite Hf; reflexivity.
Qed.

(** Witnesses: add(2^31, 1) fails; then add(3, 4) does not give 7. *)
Theorem C32_binary_refuted : exists m a1 a2,
  sendable rpc_env 100 100 (m_args m) a2 /\
  let os := fst (calls (binary bdefault) rpc_env rpc_handler rpc_ms [(m, a1); (m, a2)]
                   (b_sys 0)) in
  hd Diverge os = Raise EStructError
  /\ tl os <> fst (calls (binary bdefault) rpc_env rpc_handler rpc_ms [(m, a2)] (b_sys 0)).
Proof.
  exists rpc_add, [Some (VInt 2147483648); Some (VInt 1)], [Some (VInt 3); Some (VInt 4)].
  split; [apply rpc_add_sendable; lia|]. split; vm_compute; [reflexivity|discriminate].
Qed.

Theorem C32_compact_refuted : exists m a1 a2,
  sendable rpc_env 100 100 (m_args m) a2 /\
  let os := fst (calls (compact cdefault) rpc_env rpc_handler rpc_ms [(m, a1); (m, a2)]
                   (c_sys 0)) in
  hd Diverge os = Raise (EProtocol TP_INVALID_DATA)
  /\ tl os = [Raise EAssertion]
  /\ fst (calls (compact cdefault) rpc_env rpc_handler rpc_ms [(m, a2)] (c_sys 0))
     = [Ok (CReturn (Some (VInt 7)))].
Proof.
  exists rpc_add, [Some (VInt 2147483648); Some (VInt 1)], [Some (VInt 3); Some (VInt 4)].
  split; [apply rpc_add_sendable; lia|].
  split; [|split]; vm_compute; reflexivity.
Qed.

Example C32_ex : exists part,
  send (binary bdefault) rpc_env rpc_add [Some (VInt 1); Some (VInt 2147483648)]
    (mkcs (mkst tt [] [] 0) [])
  = (Raise EStructError, mkcs (mkst tt [] (sb_message true (lit "add") CALL 0 ++ part) 0) [])
  /\ length part = 10%nat.
Proof. eexists. split; [reflexivity|reflexivity]. Qed.

Print Assumptions C28_routed_binary.
Print Assumptions C28_routed_compact.
Print Assumptions C28_client_binary.
Print Assumptions C28_client_compact.
Print Assumptions C28_default_binary.
Print Assumptions C28_default_compact.
Print Assumptions C28_refused_binary.
Print Assumptions C28_refused_compact.
Print Assumptions C28_colon_refuted.
Print Assumptions C29_two_way_binary.
Print Assumptions C29_two_way_compact.
Print Assumptions C29_one_way_binary.
Print Assumptions C29_one_way_compact.
Print Assumptions C29_unknown_binary.
Print Assumptions C29_unknown_compact.
Print Assumptions C29_transport_error_binary.
Print Assumptions C29_transport_error_compact.
Print Assumptions C29_unencodable_refuted.
Print Assumptions C30_call_binary.
Print Assumptions C30_call_compact.
Print Assumptions C30_returned.
Print Assumptions C30_void.
Print Assumptions C30_declared.
Print Assumptions C30_undeclared.
Print Assumptions C30_application.
Print Assumptions C31_history_binary.
Print Assumptions C31_history_compact.
Print Assumptions C31_stale_binary.
Print Assumptions C31_stale_compact.
Print Assumptions C31_timeout_refuted.
Print Assumptions C32_partial_bytes_binary.
Print Assumptions C32_wedged_compact.
Print Assumptions C32_binary_refuted.
Print Assumptions C32_compact_refuted.
