(** C41: the HTTP server answers each request once. *)
From Coq Require Import String.
From Coq Require Import ZArith List Bool Lia.
From Coq Require Import Init.Byte.
From Coq Require Import ZifyBool ZifyNat ZifyN.
From Verif Require Import Base Bytes Utf8 Proto Spec Laws StructFacts Binary
  BinaryLaws SpecBinary Compact CompactLaws SpecCompact InstFacts CodecFacts FrameFacts
  Examples MsgLaws Rpc RpcFacts RpcSys PropsRpc HttpServer HttpFacts.
Import ListNotations.
Open Scope Z_scope.
Open Scope list_scope.

Definition is_response (e : hev) : bool := match e with Call _ _ => false | _ => true end.
(** HTTP responses sent. *)
Definition responses (l : list hev) : nat := length (filter is_response l).

Lemma calls_none l : calls l -> filter is_response l = [].
Proof. intros [->|(n & a & ->)]; reflexivity. Qed.

Definition trace {H} (x : list hev * outcome unit * H) := fst (fst x).
Definition result {H} (x : list hev * outcome unit * H) := snd (fst x).

(** ** The generated processor, whatever the protocol, schema, service and handler *)

(** A one-way message: the response goes out first, then at most the handler is
    called, and nothing else is sent whatever happens in it. *)
Theorem C41_oneway : forall X (P : proto X) env H
    (handler : list Z -> list (option value) -> H -> hres * H) F ms x0 rq h len name seqid s1,
  content_length rq = Some len ->
  readMessageBegin P (mkst x0 (body rq) [] 0) = (Ok (name, ONEWAY, seqid), s1) ->
  exists l, calls l
    /\ trace (do_post (gen_processor P env handler F ms) x0 rq h) = Response None [] :: l.
Proof.
  intros X P env H handler F ms x0 rq h len name seqid s1 Hl Hr.
  destruct (post_eq P env handler F ms x0 rq h len name ONEWAY seqid s1 Hl Hr)
    as (-> & l & A & B).
  exists l. split; [exact A|]. unfold trace. cbn [fst]. rewrite B. unfold last_response.
  change (ONEWAY =? ONEWAY) with true. cbv iota. rewrite app_nil_r. reflexivity.
Qed.

(** Any other message: at most a call of the handler, and then, if the processor
    returned, one response with what it wrote. *)
Theorem C41_other : forall X (P : proto X) env H
    (handler : list Z -> list (option value) -> H -> hres * H)
    F ms x0 rq h len name type seqid s1,
  content_length rq = Some len -> type <> ONEWAY ->
  readMessageBegin P (mkst x0 (body rq) [] 0) = (Ok (name, type, seqid), s1) ->
  let p := do_post (gen_processor P env handler F ms) x0 rq h in
  exists l, calls l
    /\ (result p = Ok tt ->
        exists b, trace p = l ++ [Response (Some (Z.of_nat (length b))) b])
    /\ (result p <> Ok tt -> trace p = l).
Proof.
  intros X P env H handler F ms x0 rq h len name type seqid s1 Hl Ht Hr p.
  destruct (post_eq P env handler F ms x0 rq h len name type seqid s1 Hl Hr)
    as (E & l & A & B).
  unfold p. rewrite E. unfold trace, result. cbn [fst snd]. rewrite B. unfold last_response.
  apply Z.eqb_neq in Ht. rewrite Ht. exists l. split; [exact A|].
  set (q := process _ _ _ _ _ _). clearbody q. destruct q as [[[]|e|] s]; cbn [fst snd app]; split.
  - intros _. eexists. reflexivity.
  - congruence.
  - discriminate.
  - intros _. apply app_nil_r.
  - discriminate.
  - intros _. apply app_nil_r.
Qed.

(** Never two responses, and always one if do_POST returns. *)
Lemma good_once X H (proc : processor X H) x0 rq h :
  good (proc on_begin) /\ plain (proc on_begin) ->
  let p := do_post proc x0 rq h in
  (responses (trace p) <= 1)%nat /\ (result p = Ok tt -> responses (trace p) = 1%nat).
Proof.
  intros [Hg Hp] p. destruct (post_good proc x0 rq h Hg Hp) as (l & A & B). fold p in B.
  unfold trace, result, responses. apply calls_none in A.
  destruct B as [->|[(Ho & b & ->)|[Ho ->]]]; rewrite ?filter_app; cbn [filter is_response];
    rewrite ?filter_app, A; cbn; split; auto; try lia. intros K. congruence.
Qed.

Theorem C41_at_most_once : forall X (P : proto X) env H
    (handler : list Z -> list (option value) -> H -> hres * H) F ms x0 rq h,
  let p := do_post (gen_processor P env handler F ms) x0 rq h in
  (responses (trace p) <= 1)%nat /\ (result p = Ok tt -> responses (trace p) = 1%nat).
Proof. intros. apply good_once, gen_good. Qed.

(** For every sequence of requests. *)
Theorem C41_sequence : forall X (P : proto X) env H
    (handler : list Z -> list (option value) -> H -> hres * H) F ms x0 rqs h,
  length (serve (gen_processor P env handler F ms) x0 rqs h) = length rqs
  /\ Forall (fun t => (responses t <= 1)%nat)
       (serve (gen_processor P env handler F ms) x0 rqs h).
Proof.
  intros X P env H handler F ms x0 rqs. induction rqs as [|rq r IH]; intros h;
    [split; [reflexivity|constructor]|].
  cbn [serve]. pose proof (C41_at_most_once X P env H handler F ms x0 rq h) as [K _].
  destruct (do_post _ x0 rq h) as [[t o] h']. cbn [length]. destruct (IH h') as [I1 I2].
  split; [congruence|]. constructor; assumption.
Qed.

(** ** Whole requests, byte for byte *)

Lemma b_begin cf SL CL : b_limits cf SL CL -> strict_ok cf ->
  forall name type seqid tail, name_ok SL name -> mtype_ok type -> seq_ok seqid ->
  readMessageBegin (binary cf)
    (mkst tt (sb_message (strictWrite cf) name type seqid ++ tail) [] 0)
  = (Ok (name, type, seqid), mkst tt tail [] 0).
Proof.
  intros HL Hs name type seqid tail Hn Ht Hq.
  destruct (mr_begin (binary_mlaws cf SL CL HL Hs) name type seqid tail tt [] 0 I Hn Ht Hq Logic.I)
    as ([] & i & E & K). cbn in K. subst i. exact E.
Qed.

Lemma c_begin cf SL CL : c_limits cf SL CL ->
  forall name type seqid tail, name_ok SL name -> mtype_ok type -> seq_ok seqid ->
  readMessageBegin (compact cf)
    (mkst c_init (sc_message name type seqid ++ tail) [] 0)
  = (Ok (name, type, seqid), mkst c_init tail [] 0).
Proof.
  intros HL name type seqid tail Hn Ht Hq.
  change (readMessageBegin (compact cf)) with (c_readMessageBegin cf).
  eapply c_readMessage_ok; eauto. unfold mtype_ok in Ht; lia.
Qed.

Lemma is_transport (r : hres) : (exists t, r = HTransport t) \/ (forall t, r <> HTransport t).
Proof. destruct r; try (right; discriminate). left. eauto. Qed.

(** A two-way call, however the handler ends (short of TTransportException):
    the handler is called, then the one response carries one reply message and
    its length. *)
Theorem C41_two_way_binary : forall cf SL CL env H
    (handler : list Z -> list (option value) -> H -> hres * H)
    ms m args type seqid len h h' r F,
  b_limits cf SL CL -> strict_ok cf -> 14 <= SL ->
  schema_ok env -> schema_closed env = true ->
  lookup (m_name m) ms = Some m -> m_oneway m = false -> method_ok env m ->
  name_ok SL (m_name m) -> mtype_ok type -> type <> ONEWAY -> seq_ok seqid ->
  sendable env SL CL (m_args m) args ->
  handler (m_name m) (received env (m_args m) args) h = (r, h') ->
  handler_ok env SL CL m r -> (forall t, r <> HTransport t) ->
  let req := b_msg (strictWrite cf) (m_name m) type seqid env (m_args m)
               (VStruct (m_args m) args) in
  (length req <= F)%nat ->
  exists rtype e n v,
    let b := b_msg (strictWrite cf) (m_name m) rtype seqid e n v in
    do_post (gen_processor (binary cf) env handler F ms) tt (mkreq (Some len) req) h
    = ([Call (m_name m) (received env (m_args m) args);
        Response (Some (Z.of_nat (length b))) b], Ok tt, h')
    /\ payload_ok env SL CL m rtype e n v.
Proof.
  intros cf SL CL env H handler ms m args type seqid len h h' r F
    HL Hs HSL He Hc Hl Ho Hm Hn Ht Ht' Hq Ha Hr Hh Htr req HF.
  destruct (C29_two_way_binary cf SL CL env (world H) (traced handler) ms m args type seqid
    [] [] [] [] (mkworld [] false h)
    (mkworld [Call (m_name m) (received env (m_args m) args)] false h') r F)
    as (rt & e & n & v & E & K & _); try assumption.
  { unfold traced. cbn [w_h w_trace w_replied]. rewrite Hr. reflexivity. }
  fold req in E. rewrite app_nil_r in E.
  exists rt, e, n, v. split; [|exact K].
  destruct (post_eq (binary cf) env handler F ms tt (mkreq (Some len) req) h len
    (m_name m) type seqid
    (mkst tt (sb_value env (TStruct (m_args m)) (VStruct (m_args m) args)) [] 0))
    as (Ep & _); [reflexivity| |].
  { exact (b_begin cf SL CL HL Hs _ _ _ _ Hn Ht Hq). }
  rewrite Ep. clear Ep. unfold last_response, begun. apply Z.eqb_neq in Ht'. rewrite Ht'.
  change (with_world _ _) with
    (mkss (mkst tt req [] 0) (mkst tt [] [] 0) [] (mkworld [] false h)).
  rewrite E. cbn [fst snd s_h w_trace w_h getvalue s_sent s_out out concat app].
  unfold getvalue. cbn [s_sent s_out out concat app]. rewrite !app_nil_r. reflexivity.
Qed.

Theorem C41_two_way_compact : forall cf SL CL env H
    (handler : list Z -> list (option value) -> H -> hres * H)
    ms m args type seqid len h h' r F,
  c_limits cf SL CL -> 14 <= SL ->
  schema_ok env -> schema_closed env = true ->
  lookup (m_name m) ms = Some m -> m_oneway m = false -> method_ok env m ->
  name_ok SL (m_name m) -> mtype_ok type -> type <> ONEWAY -> seq_ok seqid ->
  sendable env SL CL (m_args m) args ->
  handler (m_name m) (received env (m_args m) args) h = (r, h') ->
  handler_ok env SL CL m r -> (forall t, r <> HTransport t) ->
  let req := c_msg (m_name m) type seqid env (m_args m) (VStruct (m_args m) args) in
  (length req <= F)%nat ->
  exists rtype e n v,
    let b := c_msg (m_name m) rtype seqid e n v in
    do_post (gen_processor (compact cf) env handler F ms) c_init (mkreq (Some len) req) h
    = ([Call (m_name m) (received env (m_args m) args);
        Response (Some (Z.of_nat (length b))) b], Ok tt, h')
    /\ payload_ok env SL CL m rtype e n v.
Proof.
  intros cf SL CL env H handler ms m args type seqid len h h' r F
    HL HSL He Hc Hl Ho Hm Hn Ht Ht' Hq Ha Hr Hh Htr req HF.
  destruct (C29_two_way_compact cf SL CL env (world H) (traced handler) ms m args type seqid
    [] [] [] c_init c_init [] (mkworld [] false h)
    (mkworld [Call (m_name m) (received env (m_args m) args)] false h') r F)
    as (rt & e & n & v & xi' & xo' & E & K); try assumption; try (repeat split).
  { unfold traced. cbn [w_h w_trace w_replied]. rewrite Hr. reflexivity. }
  fold req in E. rewrite app_nil_r in E.
  exists rt, e, n, v. split; [|apply K].
  destruct (post_eq (compact cf) env handler F ms c_init (mkreq (Some len) req) h len
    (m_name m) type seqid
    (mkst c_init (sc_value env (TStruct (m_args m)) (VStruct (m_args m) args)) [] 0))
    as (Ep & _); [reflexivity| |].
  { exact (c_begin cf SL CL HL _ _ _ _ Hn Ht Hq). }
  rewrite Ep. clear Ep. unfold last_response, begun. apply Z.eqb_neq in Ht'. rewrite Ht'.
  change (with_world _ _) with
    (mkss (mkst c_init req [] 0) (mkst c_init [] [] 0) [] (mkworld [] false h)).
  rewrite E. cbn [fst snd s_h w_trace w_h].
  unfold getvalue. cbn [s_sent s_out out concat app]. rewrite !app_nil_r. reflexivity.
Qed.

(** A one-way call: the response, with no body, then the handler's call, however
    it ends; TTransportException leaves do_POST after the response. *)
Theorem C41_one_way_binary : forall cf SL CL env H
    (handler : list Z -> list (option value) -> H -> hres * H) ms m args seqid len h h' r F,
  b_limits cf SL CL -> strict_ok cf -> schema_ok env -> schema_closed env = true ->
  lookup (m_name m) ms = Some m -> m_oneway m = true ->
  name_ok SL (m_name m) -> seq_ok seqid -> sendable env SL CL (m_args m) args ->
  handler (m_name m) (received env (m_args m) args) h = (r, h') ->
  let req := b_msg (strictWrite cf) (m_name m) ONEWAY seqid env (m_args m)
               (VStruct (m_args m) args) in
  (length req <= F)%nat ->
  do_post (gen_processor (binary cf) env handler F ms) tt (mkreq (Some len) req) h
  = ([Response None []; Call (m_name m) (received env (m_args m) args)],
     match r with HTransport t => Raise (ETransport t) | _ => Ok tt end, h').
Proof.
  intros cf SL CL env H handler ms m args seqid len h h' r F
    HL Hs He Hc Hl Ho Hn Hq Ha Hr req HF.
  assert (Ht : mtype_ok ONEWAY) by (unfold mtype_ok, ONEWAY; lia).
  destruct (post_eq (binary cf) env handler F ms tt (mkreq (Some len) req) h len
    (m_name m) ONEWAY seqid
    (mkst tt (sb_value env (TStruct (m_args m)) (VStruct (m_args m) args)) [] 0))
    as (Ep & _); [reflexivity| |].
  { exact (b_begin cf SL CL HL Hs _ _ _ _ Hn Ht Hq). }
  rewrite Ep. clear Ep. unfold last_response, begun. change (ONEWAY =? ONEWAY) with true.
  cbv iota. set (w := mkworld _ true _).
  change (with_world _ _) with (mkss (mkst tt req [] 0) (mkst tt [] [] 0) [] w).
  assert (Hr' : traced handler (m_name m) (received env (m_args m) args) w
    = (r, mkworld [Response None []; Call (m_name m) (received env (m_args m) args)] true h')).
  { unfold traced, w. cbn [w_h w_trace w_replied]. rewrite Hr. reflexivity. }
  destruct (is_transport r) as [[t ->]|Htr].
  - pose proof (C29_transport_error_binary cf SL CL env (world H) (traced handler) ms m args
      ONEWAY seqid [] [] [] [] [] w _ t F HL Hs He Hc Hl Hn Ht Hq Ha Hr' HF) as E.
    fold req in E. rewrite app_nil_r in E. rewrite E. reflexivity.
  - pose proof (C29_one_way_binary cf SL CL env (world H) (traced handler) ms m args
      ONEWAY seqid [] [] [] [] [] w _ r F HL Hs He Hc Hl Ho Hn Ht Hq Ha Hr' Htr HF) as E.
    fold req in E. rewrite app_nil_r in E. rewrite E.
    destruct r; try reflexivity. exfalso. apply (Htr type). reflexivity.
Qed.

Theorem C41_one_way_compact : forall cf SL CL env H
    (handler : list Z -> list (option value) -> H -> hres * H) ms m args seqid len h h' r F,
  c_limits cf SL CL -> schema_ok env -> schema_closed env = true ->
  lookup (m_name m) ms = Some m -> m_oneway m = true ->
  name_ok SL (m_name m) -> seq_ok seqid -> sendable env SL CL (m_args m) args ->
  handler (m_name m) (received env (m_args m) args) h = (r, h') ->
  let req := c_msg (m_name m) ONEWAY seqid env (m_args m) (VStruct (m_args m) args) in
  (length req <= F)%nat ->
  do_post (gen_processor (compact cf) env handler F ms) c_init (mkreq (Some len) req) h
  = ([Response None []; Call (m_name m) (received env (m_args m) args)],
     match r with HTransport t => Raise (ETransport t) | _ => Ok tt end, h').
Proof.
  intros cf SL CL env H handler ms m args seqid len h h' r F
    HL He Hc Hl Ho Hn Hq Ha Hr req HF.
  assert (Ht : mtype_ok ONEWAY) by (unfold mtype_ok, ONEWAY; lia).
  assert (Hi : c_ready c_init) by (repeat split).
  destruct (post_eq (compact cf) env handler F ms c_init (mkreq (Some len) req) h len
    (m_name m) ONEWAY seqid
    (mkst c_init (sc_value env (TStruct (m_args m)) (VStruct (m_args m) args)) [] 0))
    as (Ep & _); [reflexivity| |].
  { exact (c_begin cf SL CL HL _ _ _ _ Hn Ht Hq). }
  rewrite Ep. clear Ep. unfold last_response, begun. change (ONEWAY =? ONEWAY) with true.
  cbv iota. set (w := mkworld _ true _).
  change (with_world _ _) with (mkss (mkst c_init req [] 0) (mkst c_init [] [] 0) [] w).
  assert (Hr' : traced handler (m_name m) (received env (m_args m) args) w
    = (r, mkworld [Response None []; Call (m_name m) (received env (m_args m) args)] true h')).
  { unfold traced, w. cbn [w_h w_trace w_replied]. rewrite Hr. reflexivity. }
  destruct (is_transport r) as [[t ->]|Htr].
  - destruct (C29_transport_error_compact cf SL CL env (world H) (traced handler) ms m args
      ONEWAY seqid [] [] [] [] c_init c_init [] w _ t F HL Hi He Hc Hl Hn Ht Hq Ha Hr' HF)
      as (xi' & E & _).
    fold req in E. rewrite app_nil_r in E. rewrite E. reflexivity.
  - destruct (C29_one_way_compact cf SL CL env (world H) (traced handler) ms m args
      ONEWAY seqid [] [] [] [] c_init c_init [] w _ r F HL Hi Hi He Hc Hl Ho Hn Ht Hq Ha
      Hr' Htr HF) as (xi' & E & _).
    fold req in E. rewrite app_nil_r in E. rewrite E.
    destruct r; try reflexivity. exfalso. apply (Htr type). reflexivity.
Qed.

(** ** Behind a multiplexed processor *)

(** Never two responses here either. *)
Theorem C41_mux_at_most_once : forall X (P : proto X) env H
    (handlers : option (list Z) -> list Z -> list (option value) -> H -> hres * H)
    undeco F default svcs x0 rq h,
  let p := do_post (mux_processor P env handlers undeco F default svcs) x0 rq h in
  (responses (trace p) <= 1)%nat /\ (result p = Ok tt -> responses (trace p) = 1%nat).
Proof. intros. apply good_once, mux_good. Qed.

(** A one-way message to a registered service: response first. *)
Theorem C41_mux_oneway : forall X (P : proto X) env H
    (handlers : option (list Z) -> list Z -> list (option value) -> H -> hres * H)
    undeco F default svcs x0 rq h len name seqid s1 svc call,
  content_length rq = Some len ->
  readMessageBegin P (mkst x0 (body rq) [] 0) = (Ok (name, ONEWAY, seqid), s1) ->
  split_name name = Some (svc, call) -> find_service svc svcs <> None ->
  exists l, calls l
    /\ trace (do_post (mux_processor P env handlers undeco F default svcs) x0 rq h)
       = Response None [] :: l.
Proof.
  intros X P env H handlers undeco F default svcs x0 rq h len name seqid s1 svc call
    Hl Hr Hs Hf. unfold do_post. rewrite Hl.
  unfold mux_processor, on_in, bind. cbn [s_in start_state].
  rewrite Hr. change (negb (ONEWAY =? CALL) && negb (ONEWAY =? ONEWAY)) with false. cbv iota.
  rewrite Hs. destruct (find_service svc svcs) as [ms|]; [|congruence].
  unfold decorated. rewrite on_begin_eq. cbn [s_out s_sent s_h].
  destruct (adds_dispatch P env (handlers (Some svc)) F ms (call, ONEWAY, seqid)
      (with_world (mkss s1 (mkst x0 [] [] 0) [] (mkworld [] false h))
         (begun ONEWAY (mkworld [] false h)))) as (l & A1 & A2 & A3).
  exists l. split; [exact A1|].
  destruct (dispatch _ _ _ _ _ _ _) as [[[]|e|] s]; cbn [fst snd s_h ret] in *;
    unfold trace; cbn [fst snd s_h]; rewrite ?A3; exact A2.
Qed.

(** ** Where the property fails *)

(** The default processor of a multiplexed one never gets the hook: its one-way
    calls are answered only after the handler has run. *)
Theorem C41_mux_default_refuted : exists rq args,
  trace (do_post (mux_processor (binary bdefault) rpc_env (fun _ => rpc_handler)
           undeco_binary 100 (Some rpc_ms) []) tt rq 0)
  = [Call (lit "ping") args; Response (Some 0) []]
  /\ exists s1, readMessageBegin (binary bdefault) (mkst tt (body rq) [] 0)
     = (Ok (lit "ping", ONEWAY, 0), s1).
Proof.
  exists (mkreq (Some 20) (b_msg true (lit "ping") ONEWAY 0 rpc_env 3 (VStruct 3 []))), [].
  split; [vm_compute; reflexivity|]. eexists. vm_compute. reflexivity.
Qed.

(** No response at all: without a usable Content-Length, when the message header
    cannot be read, and when the processor raises on a message that is not
    one-way (here the handler raises TTransportException). *)
Theorem C41_no_response_refuted :
  (forall X H (proc : processor X H) x0 b h, trace (do_post proc x0 (mkreq None b) h) = [])
  /\ (forall X (P : proto X) env H (handler : list Z -> list (option value) -> H -> hres * H)
        F ms x0 rq h,
      (forall hdr s, readMessageBegin P (mkst x0 (body rq) [] 0) <> (Ok hdr, s)) ->
      trace (do_post (gen_processor P env handler F ms) x0 rq h) = [])
  /\ (forall X (P : proto X) env H (handler : list Z -> list (option value) -> H -> hres * H)
        F ms x0 rq h name type seqid s1,
      readMessageBegin P (mkst x0 (body rq) [] 0) = (Ok (name, type, seqid), s1) ->
      type <> ONEWAY ->
      result (do_post (gen_processor P env handler F ms) x0 rq h) <> Ok tt ->
      responses (trace (do_post (gen_processor P env handler F ms) x0 rq h)) = O)
  /\ exists rq args t,
      trace (do_post (gen_processor (binary bdefault) rpc_env
        (fun _ _ (h : unit) => (HTransport t, h)) 100 rpc_ms) tt rq tt)
      = [Call (lit "add") args].
Proof.
  split; [reflexivity|]. split; [|split].
  - intros. apply post_unread. assumption.
  - intros X P env H handler F ms x0 rq h name type seqid s1 Hr Ht Hp.
    destruct (content_length rq) as [len|] eqn:El;
      [|unfold do_post; rewrite El; reflexivity].
    destruct (C41_other X P env H handler F ms x0 rq h len name type seqid s1 El Ht Hr)
      as (l & A & _ & B). rewrite (B Hp). unfold responses. rewrite (calls_none l A). reflexivity.
  - exists (mkreq (Some 40) (b_msg true (lit "add") CALL 0 rpc_env 0
        (VStruct 0 [Some (VInt 1); Some (VInt 2)]))), [Some (VInt 1); Some (VInt 2)], 1.
    vm_compute. reflexivity.
Qed.

(** A processor of one's own that lets a ResponseException out of a one-way call
    makes the server send a second response.  (A generated processor never lets
    one out.) *)
Theorem C41_response_exception_fails : forall X (P : proto X) H x0 rq (h : H) len name seqid s1,
  content_length rq = Some len ->
  readMessageBegin P (mkst x0 (body rq) [] 0) = (Ok (name, ONEWAY, seqid), s1) ->
  exists proc : processor X H,
    trace (do_post proc x0 rq h) = [Response None []; Other_response].
Proof.
  intros X P H x0 rq h len name seqid s1 Hl Hr.
  exists (fun hook => hdr <- on_in (readMessageBegin P) ;; hook hdr ;;; ret (Some [Other_response]))%monad.
  unfold do_post. rewrite Hl. unfold bind at 1, on_in. cbn [s_in start_state]. rewrite Hr.
  unfold bind. rewrite on_begin_eq. reflexivity.
Qed.

(** ** Threads *)

(** One after the other, each request is answered once, before its handler runs
    if it is one-way and after otherwise. *)
Definition one_request (oneway : nat -> bool) (i : nat) : list (nat * tstep) :=
  if oneway i then [(i, SReply); (i, SCall)] else [(i, SCall); (i, SReply)].

Theorem C41_not_threaded : forall oneway is s,
  t_trace (trun oneway (flat_map (fun i => map (pair i) program) is) s)
  = t_trace s ++ flat_map (one_request oneway) is.
Proof.
  intros oneway is. induction is as [|i r IH]; intros s; [symmetry; apply app_nil_r|].
  cbn [flat_map]. unfold trun. rewrite fold_left_app. fold (trun oneway).
  unfold trun in IH. rewrite IH. cbn. unfold one_request. unfold tdo; cbn.
  destruct (oneway i); cbn; rewrite <- !app_assoc; reflexivity.
Qed.

(** Two requests at once, a one-way (0) and a two-way (1): the second gets no
    response, or the first gets two, or the second gets the first's too. *)
Theorem C41_threaded_refuted :
  let oneway i := Nat.eqb i 0 in
  let steps i l := filter (fun e => Nat.eqb (fst e) i) l in
  let s0 := mkts false 5 [] in
  (exists l, (forall i, (i < 2)%nat -> steps i l = map (pair i) program)
     /\ t_trace (trun oneway l s0) = [(0, SReply); (0, SCall); (1, SCall)]%nat)
  /\ (exists l, (forall i, (i < 2)%nat -> steps i l = map (pair i) program)
     /\ t_trace (trun oneway l s0)
        = [(0, SReply); (1, SCall); (1, SReply); (0, SCall); (0, SReply)]%nat)
  /\ (exists l, (forall i, (i < 2)%nat -> steps i l = map (pair i) program)
     /\ t_trace (trun oneway l s0)
        = [(1, SReply); (0, SCall); (1, SCall)]%nat).
Proof.
  cbv zeta. split; [|split].
  - exists [(0, SReset); (0, SHook); (1, SReset); (0, SBegin); (0, SCall); (0, SReply);
            (1, SHook); (1, SBegin); (1, SCall); (1, SReply)]%nat.
    split; [|reflexivity]. intros [|[|i]] Hi; [reflexivity|reflexivity|lia].
  - exists [(0, SReset); (0, SHook); (0, SBegin); (1, SReset); (1, SHook); (1, SBegin);
            (1, SCall); (1, SReply); (0, SCall); (0, SReply)]%nat.
    split; [|reflexivity]. intros [|[|i]] Hi; [reflexivity|reflexivity|lia].
  - exists [(0, SReset); (0, SHook); (1, SReset); (1, SHook); (0, SBegin);
            (0, SCall); (0, SReply); (1, SBegin); (1, SCall); (1, SReply)]%nat.
    split; [|reflexivity]. intros [|[|i]] Hi; [reflexivity|reflexivity|lia].
Qed.

(** * Non-trivial cases *)

Definition add_req (a : Z) : request :=
  mkreq (Some 40) (b_msg true (lit "add") CALL 7 rpc_env 0
    (VStruct 0 [Some (VInt a); Some (VInt 2)])).
Definition ping_req : request :=
  mkreq (Some 20) (b_msg true (lit "ping") ONEWAY 0 rpc_env 3 (VStruct 3 [])).

(** A call, a one-way call, a call whose handler fails, garbage, another call. *)
Example C41_ex :
  map (map is_response)
    (serve (gen_processor (binary bdefault) rpc_env rpc_handler 100 rpc_ms) tt
       [add_req 1; ping_req; add_req 0; mkreq (Some 1) [x00]; add_req (-1)] 0)
  = [[false; true]; [true; false]; [false; true]; []; [false; true]].
Proof. vm_compute. reflexivity. Qed.

Example C41_ex_body :
  trace (do_post (gen_processor (binary bdefault) rpc_env rpc_handler 100 rpc_ms) tt
           (add_req 1) 0)
  = let b := b_msg true (lit "add") REPLY 7 rpc_env 1 (VStruct 1 [Some (VInt 3); None]) in
    [Call (lit "add") [Some (VInt 1); Some (VInt 2)]; Response (Some 23) b].
Proof. vm_compute. reflexivity. Qed.

(** Axioms used. *)
Print Assumptions C41_oneway.
Print Assumptions C41_other.
Print Assumptions C41_at_most_once.
Print Assumptions C41_sequence.
Print Assumptions C41_two_way_binary.
Print Assumptions C41_two_way_compact.
Print Assumptions C41_one_way_binary.
Print Assumptions C41_one_way_compact.
Print Assumptions C41_mux_at_most_once.
Print Assumptions C41_mux_oneway.
Print Assumptions C41_mux_default_refuted.
Print Assumptions C41_no_response_refuted.
Print Assumptions C41_response_exception_fails.
Print Assumptions C41_not_threaded.
Print Assumptions C41_threaded_refuted.
