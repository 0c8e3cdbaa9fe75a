(** C63: calls over Tornado, in any interleaving. *)
From Coq Require Import String.
From Coq Require Import ZArith List Bool Lia.
From Coq Require Import Init.Byte.
From Coq Require Import ZifyBool ZifyNat ZifyN.
From Verif Require Import Base Bytes Utf8 Proto Spec Laws StructFacts Binary BinaryLaws
  SpecBinary Compact CompactLaws SpecCompact CodecFacts BytesFacts Closure FrameFacts InstFacts
  Examples JsonText MsgLaws Rpc RpcFacts RpcSys
  PropsRpc Twisted TornadoRpc TornadoRpcFacts.
Import ListNotations.
Open Scope Z_scope.
Open Scope list_scope.

(** * The undisturbed connection *)

(** What holds of a client, a connection and a server started with handler state
    [h] after the events of which [l] are the calls: [run es] continues. *)
Definition pipelined {X H} (env : schema)
    (handler : list Z -> list (option value) -> H -> hres * H)
    (run : list tevent -> tsys X H -> tsys X H)
    (l : list (method * list (option value))) (h : H) (y : tsys X H) : Prop :=
  (* every call returned, the two-way ones with Futures 0, 1, 2, ... *)
  k_made (t_cl y) = made_of 0 l
  (* the handler has been called for the first so many calls, in order *)
  /\ (exists served, (served <= length l)%nat
        /\ t_h y = snd (reference env handler (firstn served l) h))
  (* the Futures of a first part have got what their own calls earned, once *)
  /\ (exists answered, k_done (t_cl y) = firstn answered (answers env handler 0 l h))
  (* no bytes on the way: all of them have *)
  /\ (t_up_in y = [] -> t_up y = [] -> t_down_in y = [] -> t_down y = [] ->
      k_done (t_cl y) = answers env handler 0 l h /\ k_reqs (t_cl y) = []
      /\ t_h y = snd (reference env handler l h))
  (* and that can be reached without further calls *)
  /\ (exists es, Forall honest es /\ tcalls es = []
      /\ k_done (t_cl (run es y)) = answers env handler 0 l h
      /\ k_reqs (t_cl (run es y)) = []
      /\ t_h (run es y) = snd (reference env handler l h)).

Lemma pipelined_ok {X} {P : proto X} {SL CL : Z} (L : mlaws P SL CL) env H
    (handler : list Z -> list (option value) -> H -> hres * H) ms x0 es h :
  schema_ok env -> schema_closed env = true -> service_ok env SL ms -> 14 <= SL ->
  ml_idle L x0 -> Forall honest es -> ok L env handler ms (tcalls es) h ->
  pipelined env handler (trun P env handler ms x0) (tcalls es) h
    (trun P env handler ms x0 es (tstart x0 h)).
Proof.
  intros He Hc Hms HSL Hx Hh Hok.
  pose proof (good_run L env He Hc handler ms Hms HSL x0 Hx h es [] (tstart x0 h) Hh
    (good_start L env handler x0 Hx h) Hok) as G.
  cbn [app] in G.
  destruct (good_prefix L env handler h _ _ G) as (sv & an & Hs & Eh & Ed & Em & _).
  split; [exact Em|]. split; [exists sv; split; [exact Hs|rewrite Eh; apply after_reference]|].
  split; [exists an; exact Ed|]. rewrite <- after_reference. split.
  - intros A B C D. exact (good_drained L env handler ms h _ _ G Hok A B C D).
  - exact (good_drain L env He Hc handler ms Hms HSL x0 Hx h _ _ G Hok).
Qed.

Theorem C63_pipelined_binary : forall bf SL CL env H
    (handler : list Z -> list (option value) -> H -> hres * H) ms es h,
  b_limits bf SL CL -> strict_ok bf -> 14 <= SL ->
  schema_ok env -> schema_closed env = true -> service_ok env SL ms ->
  (forall m args, In (m, args) (tcalls es) ->
     In m ms /\ sendable env SL CL (m_args m) args) ->
  good_history env handler SL CL (tcalls es) h ->
  Z.of_nat (length (tcalls es)) < 2147483648 ->
  sized (b_msg (strictWrite bf)) env handler 1 (tcalls es) h ->
  Forall honest es ->
  pipelined env handler (trun (binary bf) env handler ms tt) (tcalls es) h
    (trun (binary bf) env handler ms tt es (tstart tt h)).
Proof.
  intros bf SL CL env H handler ms es h HL Hs HSL He Hc Hms Hall Hg Hn Hz Hh.
  apply (pipelined_ok (binary_mlaws bf SL CL HL Hs)); try assumption; [exact I|].
  destruct (sized_small (binary_mlaws bf SL CL HL Hs) env handler _
    (fun name t q e n v => b_msg_eq bf SL CL HL Hs name t q e n v) _ _ _ Hz) as [A B].
  split; [|split; [exact Hg|split; [exact Hn|split; [exact A|exact B]]]].
  apply Forall_forall. intros [m args] I. exact (Hall m args I).
Qed.

Theorem C63_pipelined_compact : forall kf SL CL env H
    (handler : list Z -> list (option value) -> H -> hres * H) ms es h,
  c_limits kf SL CL -> 14 <= SL ->
  schema_ok env -> schema_closed env = true -> service_ok env SL ms ->
  (forall m args, In (m, args) (tcalls es) ->
     In m ms /\ sendable env SL CL (m_args m) args) ->
  good_history env handler SL CL (tcalls es) h ->
  Z.of_nat (length (tcalls es)) < 2147483648 ->
  sized c_msg env handler 1 (tcalls es) h ->
  Forall honest es ->
  pipelined env handler (trun (compact kf) env handler ms c_init) (tcalls es) h
    (trun (compact kf) env handler ms c_init es (tstart c_init h)).
Proof.
  intros kf SL CL env H handler ms es h HL HSL He Hc Hms Hall Hg Hn Hz Hh.
  apply (pipelined_ok (compact_mlaws kf SL CL HL)); try assumption; [repeat split|].
  destruct (sized_small (compact_mlaws kf SL CL HL) env handler _
    (fun name t q e n v => c_msg_eq kf SL CL HL name t q e n v) _ _ _ Hz) as [A B].
  split; [|split; [exact Hg|split; [exact Hn|split; [exact A|exact B]]]].
  apply Forall_forall. intros [m args] I. exact (Hall m args I).
Qed.

(** Three calls in flight before anything arrives, in pieces. *)
Definition t_ex : list tevent :=
  [TCall rpc_add [Some (VInt 1); Some (VInt 2)]; TUp 7; TServe;
   TCall rpc_ping []; TCall rpc_add [Some (VInt 3); Some (VInt 4)]; TUp 1000; TServe;
   TDown 5; TReceive; TServe; TDown 40; TReceive; TServe; TDown 1000; TReceive; TReceive].

Example C63_ex_hyps :
  Forall honest t_ex
  /\ (forall m args, In (m, args) (tcalls t_ex) ->
        In m rpc_ms /\ sendable rpc_env 100 100 (m_args m) args)
  /\ good_history rpc_env rpc_handler 100 100 (tcalls t_ex) 0
  /\ sized (b_msg true) rpc_env rpc_handler 1 (tcalls t_ex) 0.
Proof.
  split; [repeat constructor|]. split.
  { intros m args [E|[E|[E|[]]]]; injection E as <- <-; (split; [cbn; tauto|]);
      (split; [vm_compute; reflexivity|cbn; lia]). }
  split.
  - cbn [tcalls t_ex good_history rpc_handler received attrs with_defaults nth_error rpc_env m_args
         rpc_add rpc_ping m_name f_ty f_def].
    repeat split; intros; try discriminate; try (cbn; lia); reflexivity.
  - cbn [tcalls t_ex sized rpc_handler received attrs with_defaults nth_error rpc_env m_args m_oneway
         rpc_add rpc_ping m_name f_ty f_def].
    repeat match goal with
      | |- True => exact I
      | |- _ /\ _ => split
      | |- Z.of_nat _ < _ => vm_compute; reflexivity
      | |- true = false -> _ => intros C; discriminate C
      | |- _ -> forall t e n v, reply_for _ _ _ = _ -> _ =>
          let E := fresh in intros _ t e n v E; vm_compute in E;
          injection E as <- <- <- <-
      end.
Qed.

Example C63_ex_binary :
  let y := trun (binary bdefault) rpc_env rpc_handler rpc_ms tt t_ex (tstart tt 0) in
  k_made (t_cl y) = [Ok (Some O); Ok None; Ok (Some 1%nat)]
  /\ k_done (t_cl y) = answers rpc_env rpc_handler 0 (tcalls t_ex) 0
  /\ map fst (k_done (t_cl y)) = [0; 1]%nat /\ k_reqs (t_cl y) = [].
Proof. vm_compute. repeat split. Qed.

Example C63_ex_compact :
  let y := trun (compact cdefault) rpc_env rpc_handler rpc_ms c_init t_ex (tstart c_init 0) in
  k_done (t_cl y) = answers rpc_env rpc_handler 0 (tcalls t_ex) 0 /\ k_reqs (t_cl y) = [].
Proof. vm_compute. repeat split. Qed.

(** * Any execution: any bytes from the server, cancellation, loss *)

(** A Future is settled at most once, only if a call made it, and not after the
    user cancelled it. *)
Theorem C63_once : forall X H (P : proto X) env
    (handler : list Z -> list (option value) -> H -> hres * H) ms x0 es h,
  let y := trun P env handler ms x0 es (tstart x0 h) in
  NoDup (map fst (k_done (t_cl y)))
  /\ forall d, In d (map fst (k_done (t_cl y))) ->
       (d < futures (tcalls es))%nat /\ ~ In d (k_cancelled (t_cl y)).
Proof.
  intros X H P env handler ms x0 es h y.
  pose proof (kinv_run P env handler ms x0 es [] (tstart x0 h) kinv_start) as K.
  cbn [app] in K. fold y in K. split; [exact (ki_done _ _ K)|].
  intros d Hd. split; [exact (ki_known _ _ K d Hd)|exact (ki_cancel _ _ K d Hd)].
Qed.

(** Futures are settled by a frame that carries the sequence id of their own
    call, or by the loss of the connection, and by nothing else. *)
Theorem C63_matched : forall X H (P : proto X) env
    (handler : list Z -> list (option value) -> H -> hres * H) ms x0 es h e d r,
  let y := trun P env handler ms x0 es (tstart x0 h) in
  In (d, r) (k_done (t_cl (tstep P env handler ms x0 e y))) -> ~ In (d, r) (k_done (t_cl y)) ->
  (exists f rest fname mtype q s, e = TReceive
     /\ take_frame (t_down_in y) = Some (f, rest)
     /\ readMessageBegin P (mkst x0 f [] 0) = (Ok (fname, mtype, q), s)
     /\ future_seq 1 (tcalls es) d = Some q)
  \/ (e = TLost /\ r = Raise (ETransport TT_END_OF_FILE)).
Proof.
  intros X H P env handler ms x0 es h e d r y Hin Hnot.
  pose proof (kinv_run P env handler ms x0 es [] (tstart x0 h) kinv_start) as K.
  cbn [app] in K. fold y in K.
  destruct (done_step P env handler ms x0 _ y e K)
    as [E|[(f & rest & fname & mtype & q & s & d' & r' & -> & T & R & F & _ & E)
          |(-> & l0 & l1 & _ & E)]]; rewrite E in Hin.
  - contradiction.
  - apply in_app_or in Hin as [Hin|[Hin|[]]]; [contradiction|].
    assert (d' = d) by congruence. subst d'.
    left. exists f, rest, fname, mtype, q, s. auto.
  - apply in_app_or in Hin as [Hin|Hin]; [contradiction|].
    unfold failed in Hin. apply in_map_iff in Hin as (x & Ex & _).
    right. split; [reflexivity|congruence].
Qed.

(** If the connection is lost while the receiving coroutine runs, and no Future
    was cancelled, nobody is left waiting. *)
Theorem C63_lost : forall X H (P : proto X) env
    (handler : list Z -> list (option value) -> H -> hres * H) ms x0 es h,
  let y := trun P env handler ms x0 es (tstart x0 h) in
  let y' := tstep P env handler ms x0 TLost y in
  k_running (t_cl y) = true -> k_cancelled (t_cl y) = [] ->
  (forall d, (d < futures (tcalls es))%nat -> In d (map fst (k_done (t_cl y'))))
  /\ (forall d, In d (map snd (k_reqs (t_cl y))) ->
        In (d, Raise (ETransport TT_END_OF_FILE)) (k_done (t_cl y')))
  /\ k_reqs (t_cl y') = []
  /\ forall m args, exists r,
       k_made (t_cl (tstep P env handler ms x0 (TCall m args) y')) = k_made (t_cl y') ++ [r]
       /\ forall d, r <> Ok d.
Proof.
  intros X H P env handler ms x0 es h y y' R C.
  pose proof (kinv_run P env handler ms x0 es [] (tstart x0 h) kinv_start) as K.
  cbn [app] in K. fold y in K.
  destruct (lost_all _ _ K R C) as (D & E & A).
  change (lost (t_cl y)) with (t_cl y') in *.
  split; [rewrite <- (ki_next _ _ K); exact A|].
  split; [|split; [exact E|]].
  - intros d Hd. rewrite D. apply in_or_app. right. unfold failed.
    apply in_map_iff in Hd as ([q c] & <- & Hc). apply in_map_iff.
    exists (q, c). split; [reflexivity|exact Hc].
  - intros m args. apply closed_call. unfold y'. cbn [tstep set_cl t_cl]. unfold lost.
    destruct (k_running (stream_closed (t_cl y))); [|reflexivity].
    destruct (fail_all _ _ _) as [b k'] eqn:Ef.
    destruct (fail_all_spec _ _ _ _ _ Ef) as (l0 & l1 & _ & -> & _). destruct b; reflexivity.
Qed.

Example C63_lost_ex :
  let es := [TCall rpc_add [Some (VInt 1); Some (VInt 2)];
             TCall rpc_add [Some (VInt 3); Some (VInt 4)]; TUp 1000; TServe; TDown 1000;
             TReceive] in
  let y := trun (binary bdefault) rpc_env rpc_handler rpc_ms tt es (tstart tt 0) in
  k_running (t_cl y) = true /\ k_cancelled (t_cl y) = []
  /\ map fst (k_done (t_cl y)) = [O] /\ map snd (k_reqs (t_cl y)) = [1%nat].
Proof. vm_compute. repeat split. Qed.

(** * What goes wrong *)

(** Once the receiving coroutine has ended, nothing settles a Future any more:
    not a reply, not even the loss of the connection. *)
Theorem C63_stranded : forall X H (P : proto X) env
    (handler : list Z -> list (option value) -> H -> hres * H) ms x0 es (y : tsys X H),
  k_running (t_cl y) = false ->
  k_done (t_cl (trun P env handler ms x0 es y)) = k_done (t_cl y).
Proof. intros. apply ended_run. assumption. Qed.

(** [d] was returned to a caller, not cancelled, and is never settled whatever
    happens after [es]. *)
Definition waits_forever (es : list tevent) (d : nat) : Prop :=
  In (Ok (Some d)) (k_made (t_cl (trun (binary bdefault) rpc_env rpc_handler rpc_ms tt es
                                    (tstart tt 0))))
  /\ ~ In (TCancel d) es
  /\ forall more, ~ In d (map fst (k_done (t_cl (trun (binary bdefault) rpc_env rpc_handler
       rpc_ms tt (es ++ more) (tstart tt 0))))).

Lemma waits es d :
  In (Ok (Some d)) (k_made (t_cl (trun (binary bdefault) rpc_env rpc_handler rpc_ms tt es
                                    (tstart tt 0)))) ->
  ~ In (TCancel d) es ->
  k_running (t_cl (trun (binary bdefault) rpc_env rpc_handler rpc_ms tt es (tstart tt 0)))
    = false ->
  ~ In d (map fst (k_done (t_cl (trun (binary bdefault) rpc_env rpc_handler rpc_ms tt es
                                   (tstart tt 0))))) ->
  waits_forever es d.
Proof.
  intros A B C D. split; [exact A|]. split; [exact B|]. intros more.
  rewrite trun_app, ended_run by exact C. exact D.
Qed.

Definition add12 : tevent := TCall rpc_add [Some (VInt 1); Some (VInt 2)].

(** Cancelling one Future (a timeout): the well-formed reply to it ends the
    receiving coroutine, and another caller waits for ever although its reply
    arrived. *)
Theorem C63_cancel_refuted : exists es d,
  (forall e, In e es -> honest e \/ e = TCancel 0) /\ waits_forever es d
  /\ let y := trun (binary bdefault) rpc_env rpc_handler rpc_ms tt es (tstart tt 0) in
     t_up y = [] /\ t_up_in y = [] /\ t_down y = [] /\ t_serving y = true.
Proof.
  exists [add12; add12; TCancel 0; TUp 1000; TServe; TServe; TDown 1000; TReceive; TReceive],
    1%nat.
  split.
  { intros e H. repeat (destruct H as [<-|H]; [cbn; auto|]). contradiction. }
  split; [|vm_compute; repeat split].
  apply waits; [vm_compute; auto| |vm_compute; reflexivity|vm_compute; tauto].
  intros H. repeat (destruct H as [H|H]; [discriminate|]). contradiction.
Qed.

(** ... and when the connection is lost after a cancellation, Futures behind the
    cancelled one are not told. *)
Theorem C63_cancel_lost_refuted : exists es d,
  es = [add12; add12; TCancel 0; TLost] /\ waits_forever es d.
Proof.
  exists [add12; add12; TCancel 0; TLost], 1%nat. split; [reflexivity|].
  apply waits; [vm_compute; auto| |vm_compute; reflexivity|vm_compute; tauto].
  intros H. repeat (destruct H as [H|H]; [discriminate|]). contradiction.
Qed.

(** A frame without a message header, or one for a method the client does not
    have: likewise. *)
Theorem C63_bad_reply_refuted : exists empty unknown,
  waits_forever [add12; TInject empty; TReceive; TLost] 0
  /\ waits_forever [add12; TInject unknown; TReceive; TLost] 0
  /\ (exists r, take_frame unknown = Some (r, []) /\
        fst (readMessageBegin (binary bdefault) (mkst tt r [] 0))
        = Ok (lit "sub", REPLY, 1)).
Proof.
  exists (fr []), (fr (b_msg true (lit "sub") REPLY 1 rpc_env 1 (VStruct 1 [Some (VInt 3); None]))).
  split; [|split].
  - apply waits; [vm_compute; auto| |vm_compute; reflexivity|vm_compute; tauto].
    intros H. repeat (destruct H as [H|H]; [discriminate|]). contradiction.
  - apply waits; [vm_compute; auto| |vm_compute; reflexivity|vm_compute; tauto].
    intros H. repeat (destruct H as [H|H]; [discriminate|]). contradiction.
  - exists (b_msg true (lit "sub") REPLY 1 rpc_env 1 (VStruct 1 [Some (VInt 3); None])).
    split; vm_compute; reflexivity.
Qed.

(** A call whose arguments cannot be encoded: its caller gets the exception, but
    what was written stays in front of the next request.  The server runs the
    handler for that mixture (here it complains of a negative argument nobody
    passed), and the next caller gets no answer. *)
Theorem C63_failed_send_refuted : exists bad neg,
  let run first := trun (binary bdefault) rpc_env rpc_handler rpc_ms tt
                     (first ++ [add12; TUp 1000; TServe; TServe; TDown 1000; TReceive;
                                TReceive]) (tstart tt 0) in
  k_done (t_cl (run [])) = [(O, Ok (CReturn (Some (VInt 3))))]
  /\ (exists e, k_made (t_cl (run [TCall rpc_add bad])) = [Raise e; Ok (Some 1%nat)])
  /\ k_done (t_cl (run [TCall rpc_add bad])) = [(O, Ok (CThrow neg))]
  /\ t_up_in (run [TCall rpc_add bad]) = [] /\ t_down_in (run [TCall rpc_add bad]) = [].
Proof.
  exists [Some (VInt 99999999999); None], (VStruct 2 [Some (VStr (lit "neg"))]). vm_compute.
  split; [reflexivity|]. split; [eexists; reflexivity|]. split; [reflexivity|].
  split; reflexivity.
Qed.

Lemma skip_skip {A} (l : list A) : forall n m, skipn n (skipn m l) = skipn (n + m) l.
Proof.
  induction l as [|a r IH]; intros n m; [rewrite !skipn_nil; reflexivity|].
  destruct m as [|m]; [rewrite Nat.add_0_r; reflexivity|].
  rewrite Nat.add_succ_r. apply IH.
Qed.

(** A request whose frame would be longer than a frame can be (2^31 bytes): the
    caller gets struct.error, nothing is sent, and the request stays in the
    write buffer, ... *)
Lemma tframe_none b : 2 ^ 31 <= Z.of_nat (length b) -> tframe b = None.
Proof.
  intros Hb. unfold tframe. rewrite pack_signed_bad; [reflexivity|].
  unfold in_signed. change (8 * Z.of_nat 4 - 1) with 31. lia.
Qed.

(** Every writing method only appends, those for messages included. *)
Definition appends {X} (P : proto X) : Prop :=
  rwrites (@writes X) P
  /\ (forall n t q, writes unit (writeMessageBegin P n t q) (writeMessageBegin P n t q))
  /\ writes unit (writeMessageEnd P) (writeMessageEnd P).

Lemma binary_appends cf : appends (binary cf).
Proof.
  split; [apply binary_writes|]. split; [intros n t q|];
    [change (writeMessageBegin (binary cf)) with (b_writeMessageBegin cf)
    |change (writeMessageEnd (binary cf)) with b_pass];
    unfold b_writeMessageBegin; b_unfold; method (writes_closed unit).
Qed.

Lemma compact_appends cf : appends (compact cf).
Proof.
  split; [apply compact_writes|]. split; [intros n t q|];
    [change (writeMessageBegin (compact cf)) with c_writeMessageBegin
    |change (writeMessageEnd (compact cf)) with c_writeMessageEnd];
    unfold c_writeMessageBegin, c_writeMessageEnd; c_unfold; method (writes_closed cst).
Qed.

Lemma twrite_extends X (P : proto X) env m args q s : appends P ->
  exists post, out (snd (twrite_call P env m args q s)) = out s ++ post.
Proof.
  intros (HW & HB & HE).
  assert (W : writes unit (twrite_call P env m args q) (twrite_call P env m args q)).
  { unfold twrite_call.
    apply (rc_bind _ (writes_closed X)); [apply HB|intros _].
    apply (rc_bind _ (writes_closed X)); [apply (write_value_rel _ (writes_closed X) P HW)|intros _].
    exact HE. }
  apply (W s).
Qed.

Theorem C63_too_long : forall X H (P : proto X) env
    (handler : list Z -> list (option value) -> H -> hres * H) ms x0 m args (y : tsys X H) s,
  twrite_call P env m args (k_seq (t_cl y) + 1) (mkst x0 [] (k_wbuf (t_cl y)) 0) = (Ok tt, s) ->
  2 ^ 31 <= Z.of_nat (length (out s)) ->
  let y' := tstep P env handler ms x0 (TCall m args) y in
  k_made (t_cl y') = k_made (t_cl y) ++ [Raise EStructError]
  /\ t_up y' = t_up y /\ k_wbuf (t_cl y') = out s.
Proof.
  intros X H P env handler ms x0 m args y s E Hl. cbn [tstep]. unfold tcall. rewrite E.
  rewrite tframe_none by exact Hl. cbn. rewrite app_nil_r. repeat split.
Qed.

(** ... so that this client never sends anything again: every later call
    raises. *)
Lemma jammed : forall X H (P : proto X) env
    (handler : list Z -> list (option value) -> H -> hres * H) ms x0 es (y : tsys X H),
  appends P -> 2 ^ 31 <= Z.of_nat (length (k_wbuf (t_cl y))) ->
  let y' := trun P env handler ms x0 es y in
  (exists n, t_up y' = skipn n (t_up y))
  /\ exists rs, k_made (t_cl y') = k_made (t_cl y) ++ rs /\ length rs = length (tcalls es)
     /\ forall d, ~ In (Ok d) rs.
Proof.
  intros X H P env handler ms x0 es y HW. revert y.
  induction es as [|e es IH]; intros y Hl.
  - cbn. split; [exists O; reflexivity|]. exists []. rewrite app_nil_r.
    repeat split. intros d [].
  - change (trun P env handler ms x0 (e :: es) y)
      with (trun P env handler ms x0 es (tstep P env handler ms x0 e y)).
    assert (S : exists n rs, t_up (tstep P env handler ms x0 e y) = skipn n (t_up y)
      /\ k_made (t_cl (tstep P env handler ms x0 e y)) = k_made (t_cl y) ++ rs
      /\ length rs = length (tcalls [e]) /\ (forall d, ~ In (Ok d) rs)
      /\ 2 ^ 31 <= Z.of_nat (length (k_wbuf (t_cl (tstep P env handler ms x0 e y))))).
    { destruct e as [m args|n| |n| |b| |d].
      - destruct (twrite_extends X P env m args (k_seq (t_cl y) + 1)
          (mkst x0 [] (k_wbuf (t_cl y)) 0) HW) as (post & Eo).
        cbn [tstep]. unfold tcall.
        destruct (twrite_call P env m args (k_seq (t_cl y) + 1) (mkst x0 [] (k_wbuf (t_cl y)) 0))
          as [o s]. cbn [snd out] in Eo.
        assert (Ho : 2 ^ 31 <= Z.of_nat (length (out s))) by (rewrite Eo, app_length; lia).
        exists O. destruct o as [u|e'|]; [rewrite tframe_none by exact Ho| |];
          eexists [_]; cbn; rewrite app_nil_r;
          (split; [reflexivity|]; split; [reflexivity|]; split; [reflexivity|];
           split; [intros d [E|[]]; discriminate E|exact Ho]).
      - exists n, []. cbn. rewrite app_nil_r. repeat split; auto.
      - exists O, []. cbn [tstep]. unfold tserve. cbn [skipn]. rewrite app_nil_r.
        destruct (t_serving y); [|repeat split; auto].
        destruct (take_frame (t_up_in y)) as [[f r]|]; [|repeat split; auto].
        destruct (process _ _ _ _ _ _) as [[u|e'|] s]; [destruct (tframes (s_sent s))| |];
          repeat split; auto.
      - exists O, []. cbn. rewrite app_nil_r. repeat split; auto.
      - exists O, []. cbn [tstep]. unfold treceive. cbn [skipn]. rewrite app_nil_r.
        destruct (k_running (t_cl y)); [|repeat split; auto].
        destruct (take_frame (t_down_in y)) as [[f r]|]; [|repeat split; auto].
        cbn [t_up t_cl].
        assert (K : k_made (on_frame P env ms x0 f (t_cl y)) = k_made (t_cl y)
                    /\ k_wbuf (on_frame P env ms x0 f (t_cl y)) = k_wbuf (t_cl y)).
        { unfold on_frame. destruct (readMessageBegin P _) as [[[[fname mtype] q]|e'|] s];
            [|split; reflexivity|split; reflexivity].
          destruct (lookup fname _) as [m|]; [|split; reflexivity].
          destruct (pop q (k_reqs (t_cl y))) as [[d l]|]; [|split; reflexivity].
          destruct (settle d _ _) as [k2|] eqn:Es; [|split; reflexivity].
          unfold settle in Es. destruct (is_done d _); [discriminate|].
          injection Es as <-. split; reflexivity. }
        destruct K as [K1 K2]. rewrite K1, K2. repeat split; auto.
      - exists O, []. cbn. rewrite app_nil_r. repeat split; auto.
      - exists O, []. cbn [tstep set_cl t_up t_cl skipn tcalls flat_map]. rewrite app_nil_r.
        assert (K : k_made (lost (t_cl y)) = k_made (t_cl y)
                    /\ k_wbuf (lost (t_cl y)) = k_wbuf (t_cl y)).
        { unfold lost. destruct (k_running (stream_closed (t_cl y))); [|split; reflexivity].
          destruct (fail_all _ _ _) as [b k'] eqn:Ef.
          destruct (fail_all_spec _ _ _ _ _ Ef) as (l0 & l1 & _ & -> & _).
          destruct b; split; reflexivity. }
        destruct K as [K1 K2]. rewrite K1, K2. repeat split; auto.
      - exists O, []. cbn [tstep]. rewrite app_nil_r.
        destruct (is_done d (t_cl y) || negb (d <? k_next (t_cl y))%nat); repeat split; auto. }
    destruct S as (n & rs & Eu & Em & Er & Hr & Hl').
    destruct (IH _ Hl') as ((n' & Eu') & rs' & Em' & Er' & Hr').
    split; [exists (n' + n)%nat; rewrite Eu', Eu; apply skip_skip|].
    exists (rs ++ rs'). split; [rewrite Em', Em, app_assoc; reflexivity|]. split.
    + rewrite app_length, Er, Er'. destruct e; reflexivity.
    + intros d Hin. apply in_app_or in Hin as [Hin|Hin]; [exact (Hr d Hin)|exact (Hr' d Hin)].
Qed.

Theorem C63_jammed_binary : forall bf H env
    (handler : list Z -> list (option value) -> H -> hres * H) ms es (y : tsys unit H),
  2 ^ 31 <= Z.of_nat (length (k_wbuf (t_cl y))) ->
  let y' := trun (binary bf) env handler ms tt es y in
  (exists n, t_up y' = skipn n (t_up y))
  /\ exists rs, k_made (t_cl y') = k_made (t_cl y) ++ rs /\ length rs = length (tcalls es)
     /\ forall d, ~ In (Ok d) rs.
Proof. intros bf H env handler ms es y. apply jammed. apply binary_appends. Qed.

Theorem C63_jammed_compact : forall kf H env
    (handler : list Z -> list (option value) -> H -> hres * H) ms es (y : tsys cst H),
  2 ^ 31 <= Z.of_nat (length (k_wbuf (t_cl y))) ->
  let y' := trun (compact kf) env handler ms c_init es y in
  (exists n, t_up y' = skipn n (t_up y))
  /\ exists rs, k_made (t_cl y') = k_made (t_cl y) ++ rs /\ length rs = length (tcalls es)
     /\ forall d, ~ In (Ok d) rs.
Proof. intros kf H env handler ms es y. apply jammed. apply compact_appends. Qed.

(** Two blobs of a gigabyte. *)
Definition blob_env : schema := [ [ mkfield 1 TBinary false None; mkfield 2 TBinary false None ] ].
Definition blob_put : method := mkmethod (lit "put") true 0 0 None [].

Lemma blob_sendable n : (0 < n)%nat -> Z.of_nat n <= 2147483647 ->
  exists s, twrite_call (binary bdefault) blob_env blob_put
      [Some (VBin (repeat x00 n)); Some (VBin (repeat x00 n))] 1 (mkst tt [] [] 0) = (Ok tt, s)
    /\ (2 * n <= length (out s))%nat.
Proof.
  intros Hn0 Hn.
  assert (HL : b_limits bdefault 2147483647 2147483647) by (repeat split; lia).
  assert (Hst : strict_ok bdefault) by (intros E; discriminate E).
  set (L := binary_mlaws bdefault 2147483647 2147483647 HL Hst).
  assert (Hb : forall r, base_okd (fun _ => true) 2147483647 TBinary (VBin (repeat x00 n)) = r ->
     r = true).
  { intros r <-. unfold base_okd, len_le. rewrite repeat_length. lia. }
  assert (Hwf : wf blob_env 2147483647 2147483647 (TStruct 0)
     (VStruct 0 [Some (VBin (repeat x00 n)); Some (VBin (repeat x00 n))]) = true).
  { cbn [wfd blob_env nth_error Nat.eqb f_ty f_req andb]. unfold base_okd, len_le.
    rewrite repeat_length. lia. }
  destruct (mw_begin L (lit "put") ONEWAY 1 tt [] [] 0 Logic.I) as ([] & E1 & _);
    [vm_compute; reflexivity|unfold mtype_ok, ONEWAY; lia|reflexivity|].
  destruct (mw_body L blob_env 0%nat _ tt [] ([] ++ ml_hdr L (lit "put") ONEWAY 1) Logic.I
     ltac:(apply schema_okb_ok; reflexivity) Hwf ltac:(cbn; lia)) as ([] & E2 & _).
  eexists. split.
  - unfold twrite_call. cbn [m_name m_oneway m_args blob_put]. unfold bind. rewrite E1.
    cbv iota beta. rewrite E2. reflexivity.
  - cbn [out]. rewrite app_length. unfold L. cbn [ml_body binary_mlaws].
    cbn [sb_value blob_env nth_error f_ty f_id].
    rewrite !app_length. unfold sb_binary. rewrite !app_length, repeat_length. lia.
Qed.

Example C63_too_long_ex : exists args s,
  twrite_call (binary bdefault) blob_env blob_put args 1 (mkst tt [] [] 0) = (Ok tt, s)
  /\ 2 ^ 31 <= Z.of_nat (length (out s)).
Proof.
  destruct (blob_sendable (Z.to_nat (2 ^ 30)) ltac:(lia) ltac:(lia)) as (s & E & Hs).
  do 2 eexists. split; [exact E|]. lia.
Qed.

(** A request whose handling raises in the server (here [fst] is not [Ok]): the
    connection is not served any more, whatever arrives. *)
Theorem C63_server_stops : forall X H (P : proto X) env
    (handler : list Z -> list (option value) -> H -> hres * H) ms x0 es (y : tsys X H) frame rest,
  t_serving y = true -> take_frame (t_up_in y) = Some (frame, rest) ->
  fst (process P env handler (length frame) ms
         (mkss (mkst x0 frame [] 0) (t_out y) [] (t_h y))) <> Ok tt ->
  let y1 := tstep P env handler ms x0 TServe y in
  t_down y1 = t_down y
  /\ let y2 := trun P env handler ms x0 es y1 in
     t_h y2 = t_h y1 /\ exists n, t_down y2 = skipn n (t_down y1).
Proof.
  intros X H P env handler ms x0 es y frame rest Hs Hf Hp y1.
  assert (K : t_down y1 = t_down y /\ t_serving y1 = false).
  { unfold y1. cbn [tstep]. unfold tserve. rewrite Hs, Hf.
    destruct (process _ _ _ _ _ _) as [[[]|e|] s]; cbn [fst] in Hp;
      [exfalso; apply Hp; reflexivity| |]; split; reflexivity. }
  destruct K as [K1 K2]. split; [exact K1|]. cbv zeta. clear K1 Hp Hf Hs. revert K2.
  generalize y1. clear y1 y. induction es as [|e es IH]; intros y Hs.
  - split; [reflexivity|exists O; reflexivity].
  - change (trun P env handler ms x0 (e :: es) y)
      with (trun P env handler ms x0 es (tstep P env handler ms x0 e y)).
    assert (S : t_serving (tstep P env handler ms x0 e y) = false
      /\ t_h (tstep P env handler ms x0 e y) = t_h y
      /\ exists n, t_down (tstep P env handler ms x0 e y) = skipn n (t_down y)).
    { destruct e as [m args|n| |n| |b| |d]; cbn [tstep].
      - destruct (tcall _ _ _ _ _ _) as [k b]. split; [exact Hs|]. split; [reflexivity|exists O; reflexivity].
      - split; [exact Hs|]. split; [reflexivity|exists O; reflexivity].
      - unfold tserve. rewrite Hs. split; [exact Hs|]. split; [reflexivity|exists O; reflexivity].
      - split; [exact Hs|]. split; [reflexivity|exists n; reflexivity].
      - unfold treceive. destruct (k_running (t_cl y)); [|split; [exact Hs|]; split; [reflexivity|exists O; reflexivity]].
        destruct (take_frame (t_down_in y)) as [[f r]|]; (split; [exact Hs|]; split; [reflexivity|exists O; reflexivity]).
      - split; [exact Hs|]. split; [reflexivity|exists O; reflexivity].
      - split; [exact Hs|]. split; [reflexivity|exists O; reflexivity].
      - destruct (is_done d (t_cl y) || negb (d <? k_next (t_cl y))%nat);
          (split; [exact Hs|]; split; [reflexivity|exists O; reflexivity]). }
    destruct S as (S1 & S2 & n & S3). destruct (IH _ S1) as (I1 & n' & I2).
    split; [rewrite I1; exact S2|]. exists (n' + n)%nat. rewrite I2, S3. apply skip_skip.
Qed.

Example C63_server_stops_ex :
  let junk := [x00; x00; x00; x01; xff] in
  let y := mkts tc_start [] junk [] [] (mkst tt [] [] 0) 0 true in
  take_frame junk = Some ([xff], [])
  /\ fst (process (binary bdefault) rpc_env rpc_handler 1 rpc_ms
            (mkss (mkst tt [xff] [] 0) (t_out y) [] (t_h y))) = Raise EEOFError.
Proof. vm_compute. split; reflexivity. Qed.

(** Axioms used. *)
Print Assumptions C63_pipelined_binary.
Print Assumptions C63_pipelined_compact.
Print Assumptions C63_once.
Print Assumptions C63_matched.
Print Assumptions C63_lost.
Print Assumptions C63_stranded.
Print Assumptions C63_cancel_refuted.
Print Assumptions C63_cancel_lost_refuted.
Print Assumptions C63_bad_reply_refuted.
Print Assumptions C63_failed_send_refuted.
Print Assumptions C63_too_long.
Print Assumptions C63_jammed_binary.
Print Assumptions C63_jammed_compact.
Print Assumptions C63_server_stops.
