(** C65: the Twisted server, with its own client and with any other. *)
From Coq Require Import String.
From Coq Require Import ZArith List Bool Lia.
From Coq Require Import Init.Byte.
From Coq Require Import ZifyBool ZifyNat ZifyN.
From Verif Require Import Base Bytes Utf8 Proto Spec Laws StructFacts Binary BinaryLaws
  SpecBinary Compact CompactLaws SpecCompact CodecFacts MsgLaws Rpc RpcFacts RpcSys
  PropsRpc Twisted TornadoRpc TornadoRpcFacts TwistedServer TwistedServerFacts.
Import ListNotations.
Open Scope Z_scope.
Open Scope list_scope.

(** * A Twisted client and a Twisted server *)

(** A result invocation [d] may have: not a TTransportException; of a two-way
    method one that can be encoded, in a message ([enc]) below the size of a
    string. *)
Definition answerable (enc : list Z -> Z -> Z -> schema -> nat -> value -> list byte)
    (env : schema) (SL CL : Z) (d : nat) (m : method) (r : hres) : Prop :=
  (forall t, r <> HTransport t)
  /\ (m_oneway m = false -> handler_ok env SL CL m r
      /\ forall t e n v, reply_for env m r = Some (t, e, n, v) ->
           Z.of_nat (length (enc (m_name m) t (Z.of_nat d + 1) e n v)) < 2147483648).

(** The calls [l] can be sent; what the handler answers at once, and what its
    Deferreds fire with, is answerable; the connection is not lost. *)
Definition undisturbed {H} (enc : list Z -> Z -> Z -> schema -> nat -> value -> list byte)
    (env : schema) (SL CL : Z) (ms : list method)
    (handler : list Z -> list (option value) -> H -> option hres * H)
    (es : list xevent) : Prop :=
  let l := xcalls es in
  Z.of_nat (length l) < 2147483648
  /\ (forall d m args, nth_error l d = Some (m, args) ->
        In m ms /\ sendable env SL CL (m_args m) args
        /\ Z.of_nat (length (enc (m_name m) (if m_oneway m then ONEWAY else CALL)
             (Z.of_nat d + 1) env (m_args m) (VStruct (m_args m) args))) < 2147483648
        /\ (forall h r h', handler (m_name m) (received env (m_args m) args) h = (Some r, h') ->
              answerable enc env SL CL d m r)
        /\ forall r, In (XFire d r) es -> answerable enc env SL CL d m r)
  /\ ~ In XLost es.

(** What then holds of the system [y] after the calls [l]; [run] continues. *)
Definition served {H} enc (env : schema) (SL CL : Z) (run : list xevent -> xsys H -> xsys H)
    (l : list (method * list (option value))) (y : xsys H) : Prop :=
  let sv := x_sv y in let log := c_log (x_cl y) in
  (* the handler was invoked for the first so many calls, in order, with what was sent *)
  (exists k, (k <= length l)%nat
     /\ w_calls sv = map (fun c => (m_name (fst c), received env (m_args (fst c)) (snd c)))
                       (firstn k l))
  (* an invocation finishes once *)
  /\ NoDup (map fst (w_done sv))
  /\ (forall d, In d (map fst (w_done sv)) -> (d < length (w_calls sv))%nat)
  (* of a first part of those finished, the callers have got what their own call
     earned, in that order, and nobody else has got anything *)
  /\ (exists a b, w_done sv = a ++ b /\ got log = earned env l a)
  /\ sent_log log = one_ways 0 l
  /\ Forall fine log /\ c_alive (x_cl y) = true /\ w_closing sv = false
  (* nothing under way: every call was served and every caller answered *)
  /\ (drained y ->
      length (w_calls sv) = length l
      /\ (forall d, (d < length l)%nat -> In d (map fst (w_done sv)))
      /\ got log = earned env l (w_done sv) /\ c_reqs (x_cl y) = [])
  (* and that can be reached, whatever the handlers answer *)
  /\ (forall res, (forall d m args, nth_error l d = Some (m, args) ->
                     answerable enc env SL CL d m (res d)) ->
      exists n m, drained (run ([XUp n] ++ map (fun d => XFire d (res d)) (seq 0 (length l))
                                ++ [XDown m]) y)).

Lemma answerable_good {X} {P : proto X} {SL CL : Z} (L : mlaws P SL CL) env enc d m r :
  (forall name t q e n v, message L name t q e n v = enc name t q e n v) ->
  ml_dok L = (fun _ => true) ->
  answerable enc env SL CL d m r -> good L env d m r.
Proof.
  intros E HD [A B]. split; [exact A|]. intros Ho. destruct (B Ho) as [Hh Hs].
  split; [rewrite HD; exact Hh|].
  unfold small, rep. destruct (reply_for env m r) as [[[[t e] n] v]|] eqn:Er.
  - rewrite E. apply Hs. reflexivity.
  - cbn. lia.
Qed.

Lemma reqs_small {X} {P : proto X} {SL CL : Z} (L : mlaws P SL CL) env enc l :
  (forall name t q e n v, message L name t q e n v = enc name t q e n v) ->
  forall q, (forall d m args, nth_error l d = Some (m, args) ->
     Z.of_nat (length (enc (m_name m) (if m_oneway m then ONEWAY else CALL)
             (q + Z.of_nat d) env (m_args m) (VStruct (m_args m) args))) < 2147483648) ->
  Forall small (reqs L env q l).
Proof.
  intros E. induction l as [|[m args] r IH]; intros q Hs; [constructor|].
  cbn [reqs]. constructor.
  - unfold small, req. rewrite E. specialize (Hs O m args eq_refl).
    rewrite Z.add_0_r in Hs. exact Hs.
  - apply IH. intros d m' args' E'. specialize (Hs (S d) m' args' E').
    replace (q + 1 + Z.of_nat d) with (q + Z.of_nat (S d)) by lia. exact Hs.
Qed.

Lemma served_ok {X} {P : proto X} {SL CL : Z} (L : mlaws P SL CL) enc env H
    (handler : list Z -> list (option value) -> H -> option hres * H) ms x0 es h :
  (forall name t q e n v, message L name t q e n v = enc name t q e n v) ->
  ml_dok L = (fun _ => true) ->
  schema_ok env -> schema_closed env = true -> service_ok env SL ms -> 14 <= SL ->
  ml_idle L x0 -> undisturbed enc env SL CL ms handler es ->
  served enc env SL CL (xrun P env handler ms x0) (xcalls es)
    (xrun P env handler ms x0 es (xstart h)).
Proof.
  intros Enc HD He Hc Hms HSL Hx (Hn & Hl & Hx').
  assert (Hok : okl L env ms (xcalls es)).
  { split; [|split; [exact Hn|]].
    - apply Forall_forall. intros [m args] I. apply In_nth_error in I as (d & I).
      destruct (Hl d m args I) as (A & B & _).
      split; [exact A|]. unfold args_ok. rewrite HD. exact B.
    - apply (reqs_small L env enc _ Enc). intros d m args E.
      destruct (Hl d m args E) as (_ & _ & A & _).
      replace (1 + Z.of_nat d) with (Z.of_nat d + 1) by lia. exact A. }
  assert (Hh : okh L env handler (xcalls es)).
  { intros d m args h0 r h' E Eh. destruct (Hl d m args E) as (_ & _ & _ & A & _).
    apply (answerable_good L env enc d m r Enc HD). apply (A h0 r h' Eh). }
  assert (Hev : Forall (okev L env (xcalls es)) es).
  { apply Forall_forall. intros e I. destruct e as [m args|n|d r|n|]; cbn [okev]; auto.
    intros m args E. destruct (Hl d m args E) as (_ & _ & _ & _ & A).
    apply (answerable_good L env enc d m r Enc HD). apply A. exact I. }
  pose proof (sys_run L env He Hc handler ms Hms HSL x0 Hx es [] (xstart h) Hok Hh Hev
    (sys_start L env h)) as S. cbn [app] in S.
  set (y := xrun P env handler ms x0 es (xstart h)) in *.
  pose proof (sys_drained L env ms _ _ Hok S) as Dr.
  pose proof S as (done1 & [M W] & Wi & Wb & (C1 & C2 & C3 & C4 & C5 & C6 & C7)).
  assert (Ek : length (w_calls (x_sv y)) = w_next (x_sv y)).
  { rewrite (md_calls _ _ _ _ _ _ _ _ M), map_length, firstn_length_le; [reflexivity|].
    exact (md_next _ _ _ _ _ _ _ _ M). }
  unfold served. cbv zeta. split; [|split; [|split; [|split; [|split; [|split; [|split;
    [|split; [|split]]]]]]]].
  - exists (w_next (x_sv y)). split; [exact (md_next _ _ _ _ _ _ _ _ M)|].
    exact (md_calls _ _ _ _ _ _ _ _ M).
  - exact (md_dnd _ _ _ _ _ _ _ _ M).
  - intros d I. rewrite Ek. apply in_map_iff in I as ([d' r] & <- & I).
    destruct (md_dlt _ _ _ _ _ _ _ _ M d' r I) as [A _]. exact A.
  - destruct (md_out _ _ _ _ _ _ _ _ M) as (done2 & A & _). exists done1, done2.
    split; [exact A|exact C5].
  - exact C6.
  - exact C7.
  - exact C4.
  - exact (md_closing _ _ _ _ _ _ _ _ M).
  - intros D. rewrite Ek. exact (Dr D).
  - intros res Hr.
    destruct (sys_drain L env He Hc handler ms Hms HSL x0 Hx (xcalls es) y res Hok Hh S)
      as (n & D & _).
    { intros d m args E. apply (answerable_good L env enc d m _ Enc HD). eapply Hr. exact E. }
    exists (length (x_up y)), n. exact D.
Qed.

Theorem C65_served_binary : forall bf SL CL env H
    (handler : list Z -> list (option value) -> H -> option hres * H) ms es h,
  b_limits bf SL CL -> strict_ok bf -> 14 <= SL ->
  schema_ok env -> schema_closed env = true -> service_ok env SL ms ->
  undisturbed (b_msg (strictWrite bf)) env SL CL ms handler es ->
  served (b_msg (strictWrite bf)) env SL CL (xrun (binary bf) env handler ms tt) (xcalls es)
    (xrun (binary bf) env handler ms tt es (xstart h)).
Proof.
  intros bf SL CL env H handler ms es h HL Hs HSL He Hc Hms Hu.
  apply (served_ok (binary_mlaws bf SL CL HL Hs)); try assumption; [|reflexivity|exact Logic.I].
  intros. apply b_msg_eq.
Qed.

Theorem C65_served_compact : forall kf SL CL env H
    (handler : list Z -> list (option value) -> H -> option hres * H) ms es h,
  c_limits kf SL CL -> 14 <= SL ->
  schema_ok env -> schema_closed env = true -> service_ok env SL ms ->
  undisturbed c_msg env SL CL ms handler es ->
  served c_msg env SL CL (xrun (compact kf) env handler ms c_init) (xcalls es)
    (xrun (compact kf) env handler ms c_init es (xstart h)).
Proof.
  intros kf SL CL env H handler ms es h HL HSL He Hc Hms Hu.
  apply (served_ok (compact_mlaws kf SL CL HL)); try assumption; [|reflexivity|repeat split].
  intros. apply c_msg_eq.
Qed.

(** A handler all of whose answers come later. *)
Definition later (_ : list Z) (_ : list (option value)) (h : Z) : option hres * Z := (None, h + 1).

(** Three calls in flight; the third is answered first; everything in pieces. *)
Definition x_ex : list xevent :=
  [XCall rpc_add [Some (VInt 1); Some (VInt 2)]; XUp 7; XCall rpc_ping [];
   XCall rpc_add [Some (VInt 3); Some (VInt 4)]; XUp 1000;
   XFire 2 (HReturn (Some (VInt 7))); XDown 5; XFire 1 HOther; XFire 0 HOther;
   XDown 30; XFire 0 (HReturn (Some (VInt 9))); XDown 1000].

Lemma add_answer enc d r : r = HOther \/ (exists z, r = HReturn (Some (VInt z)) /\ between (-2147483648) 2147483647 z = true) ->
  (forall t e n v, reply_for rpc_env rpc_add r = Some (t, e, n, v) ->
     Z.of_nat (length (enc (lit "add") t (Z.of_nat d + 1) e n v)) < 2147483648) ->
  answerable enc rpc_env 100 100 d rpc_add r.
Proof.
  intros Hr Hs. split.
  - intros t E. destruct Hr as [->|(z & -> & _)]; discriminate E.
  - intros _. split; [|exact Hs]. destruct Hr as [->|(z & -> & Hz)]; cbn; [exact Logic.I|split; [exact Hz|lia]].
Qed.

Example C65_ex_hyps : undisturbed (b_msg true) rpc_env 100 100 rpc_ms later x_ex.
Proof.
  assert (A : forall d, (d < 3)%nat -> forall r,
    In r [HReturn (Some (VInt 7)); HOther; HReturn (Some (VInt 9))] ->
    answerable (b_msg true) rpc_env 100 100 d rpc_add r).
  { intros d Hd r I. apply add_answer.
    - destruct I as [<-|[<-|[<-|[]]]]; [right; eexists; split; reflexivity|left; reflexivity|
        right; eexists; split; reflexivity].
    - intros t e n v E. destruct I as [<-|[<-|[<-|[]]]]; vm_compute in E;
        injection E as <- <- <- <-; destruct d as [|[|[|d]]]; try lia; vm_compute; reflexivity. }
  split; [vm_compute; reflexivity|]. split.
  - intros d m args E.
    destruct d as [|[|[|d]]]; [| | |destruct d; discriminate E]; injection E as <- <-;
      (split; [cbn; tauto|]); (split; [split; [vm_compute; reflexivity|cbn; lia]|]);
      (split; [vm_compute; reflexivity|]);
      (split; [intros h0 r h' E; discriminate E|]).
    + intros r I. apply A; [lia|]. cbn [In x_ex] in I. cbn [In].
      repeat (destruct I as [I|I]; [try discriminate I; injection I as <-; tauto|]). destruct I.
    + intros r I. split; [|intros C; discriminate C]. cbn [In x_ex] in I.
      intros t ->. repeat (destruct I as [I|I]; [discriminate I|]). destruct I.
    + intros r I. apply A; [lia|]. cbn [In x_ex] in I. cbn [In].
      repeat (destruct I as [I|I]; [try discriminate I; injection I as <-; tauto|]). destruct I.
  - cbn. intros I. repeat (destruct I as [I|I]; [discriminate I|]). destruct I.
Qed.

Example C65_ex_binary :
  let y := xrun (binary bdefault) rpc_env later rpc_ms tt x_ex (xstart 0) in
  drained y
  /\ w_done (x_sv y) = [(2%nat, HReturn (Some (VInt 7))); (1%nat, HOther); (0%nat, HOther)]
  /\ got (c_log (x_cl y)) = [(2%nat, CReturn (Some (VInt 7)));
                             (0%nat, CApp (Some (VInt 6)) (Some (VStr (lit "Internal error"))))]
  /\ sent_log (c_log (x_cl y)) = [1%nat] /\ c_reqs (x_cl y) = [].
Proof. vm_compute. repeat split. Qed.

Example C65_ex_compact :
  let y := xrun (compact cdefault) rpc_env later rpc_ms c_init x_ex (xstart 0) in
  drained y
  /\ got (c_log (x_cl y)) = [(2%nat, CReturn (Some (VInt 7)));
                             (0%nat, CApp (Some (VInt 6)) (Some (VStr (lit "Internal error"))))]
  /\ w_h (x_sv y) = 3.
Proof. vm_compute. repeat split. Qed.

(** * The server with any client: any bytes, any protocol, any handler *)

(** How the bytes are cut up does not matter while the connection is open. *)
Theorem C65_pieces : forall X H (P : proto X) env
    (handler : list Z -> list (option value) -> H -> option hres * H) ms x0 bs y,
  (forall a b, concat bs = a ++ b -> w_closing (tw_data P env handler ms x0 a y) = false) ->
  bs <> [] ->
  srun P env handler ms x0 (map SData bs) y = tw_data P env handler ms x0 (concat bs) y.
Proof.
  intros X H P env handler ms x0. intros bs y Hc Hn.
  assert (A : forall bs a, (forall b c, concat bs = b ++ c ->
       w_closing (tw_data P env handler ms x0 (a ++ b) y) = false) ->
     srun P env handler ms x0 (map SData bs) (tw_data P env handler ms x0 a y)
     = tw_data P env handler ms x0 (a ++ concat bs) y).
  { clear. induction bs as [|b r IH]; intros a Hc.
    - cbn [map concat]. rewrite app_nil_r. reflexivity.
    - cbn [map concat]. unfold srun. cbn [fold_left sstep].
      rewrite data_app by (specialize (Hc [] (concat (b :: r)) eq_refl);
        rewrite app_nil_r in Hc; exact Hc).
      unfold srun in IH. rewrite IH.
      + rewrite app_assoc. reflexivity.
      + intros b' c E. rewrite <- app_assoc. apply (Hc (b ++ b') c).
        cbn [concat]. rewrite E, app_assoc. reflexivity. }
  destruct bs as [|b r]; [contradiction|]. cbn [map concat]. unfold srun. cbn [fold_left sstep].
  apply A. intros b' c E. apply (Hc (b ++ b') c). cbn [concat]. rewrite E, app_assoc. reflexivity.
Qed.

Example C65_pieces_ex :
  let b := sfr (b_msg true (lit "add") CALL 5 rpc_env 0 (VStruct 0 [Some (VInt 1); Some (VInt 2)])) in
  let f := fun d => tw_data (binary bdefault) rpc_env later rpc_ms tt d (tws_start 0) in
  forallb (fun k => negb (w_closing (f (firstn k b)))) (seq 0 (S (length b))) = true
  /\ length (w_calls (f b)) = 1%nat.
Proof. vm_compute. repeat split. Qed.

(** Once it is being closed it does: requests behind one whose handler fails with
    a TTransportException are served if they came in the same piece (defect). *)
Theorem C65_pieces_refuted : exists (handler : list Z -> list (option value) -> Z -> option hres * Z) a b,
  let data := tw_data (binary bdefault) rpc_env handler rpc_ms tt in
  length (w_calls (data (a ++ b) (tws_start 0))) = 2%nat
  /\ length (w_calls (data b (data a (tws_start 0)))) = 1%nat.
Proof.
  exists (fun _ _ h => (Some (HTransport 0), h + 1)),
    (sfr (b_msg true (lit "add") CALL 5 rpc_env 0 (VStruct 0 [Some (VInt 1); Some (VInt 2)]))),
    (sfr (b_msg true (lit "add") CALL 6 rpc_env 0 (VStruct 0 [Some (VInt 1); Some (VInt 2)]))).
  vm_compute. split; reflexivity.
Qed.

(** Every invocation is waited for or finished, not both, and finished once; an
    answer goes out only for a finished invocation, in the order they finished,
    never two for one; no empty message goes out. *)
Theorem C65_once : forall X H (P : proto X) env
    (handler : list Z -> list (option value) -> H -> option hres * H) ms x0 es h,
  let y := srun P env handler ms x0 es (tws_start h) in
  NoDup (map fst (w_pending y) ++ map fst (w_done y))
  /\ (forall d, In d (map fst (w_pending y) ++ map fst (w_done y)) <-> (d < length (w_calls y))%nat)
  /\ (exists keep, answered (w_sent y) = filter keep (map fst (w_done y)))
  /\ NoDup (answered (w_sent y))
  /\ (forall d msg, In (d, msg) (w_sent y) -> msg <> []).
Proof.
  intros X H P env handler ms x0 es h y.
  pose proof (ledger_run P env handler ms x0 es _ (ledger_start h)) as [A B C (k & D) E].
  fold y in A, B, C, D, E. rewrite <- A in C.
  split; [exact B|]. split; [exact C|]. split; [exists k; exact D|]. split.
  - rewrite D. apply NoDup_filter.
    assert (G : forall a b : list nat, NoDup (a ++ b) -> NoDup b).
    { induction a as [|x a IH]; intros b Hab; [exact Hab|]. inversion Hab; subst. apply IH. assumption. }
    exact (G _ _ B).
  - intros d msg I. rewrite Forall_forall in E. exact (E _ I).
Qed.

(** * A TTransportException from a handler *)

(** It closes the connection; that caller gets nothing, and no request is served
    any more. *)
Theorem C65_transport : forall X H (P : proto X) env
    (handler : list Z -> list (option value) -> H -> option hres * H) ms x0 es h d t,
  let y := srun P env handler ms x0 es (tws_start h) in
  let y' := sstep P env handler ms x0 (SFire d (HTransport t)) y in
  In d (map fst (w_pending y)) ->
  w_closing y' = true /\ w_sent y' = w_sent y
  /\ forall es', w_calls (srun P env handler ms x0 es' y') = w_calls y.
Proof.
  intros X H P env handler ms x0 es h d t y y' I.
  pose proof (ledger_run P env handler ms x0 es _ (ledger_start h)) as [_ B _ _ _]. fold y in B.
  assert (Nd : NoDup (map fst (w_pending y))).
  { assert (G : forall a b : list nat, NoDup (a ++ b) -> NoDup a).
    { induction a as [|x a IH]; intros b Hab; [constructor|]. inversion Hab; subst.
      constructor; [|eapply IH; eassumption]. intros J. apply H2. apply in_or_app. left. exact J. }
    exact (G _ _ B). }
  apply in_map_iff in I as ([d' [m q]] & E & I). cbn in E. subst d'.
  destruct (take_pending_in d (w_pending y) (m, q) Nd I) as (l & El & _).
  assert (Ey : w_closing y' = true /\ w_sent y' = w_sent y /\ w_calls y' = w_calls y).
  { unfold y'. cbn [sstep]. unfold tw_fire. rewrite El. unfold tw_finish, tw_answer. cbn [reply_for].
    destruct (m_oneway m); repeat split. }
  destruct Ey as (E1 & E2 & E3). split; [exact E1|]. split; [exact E2|].
  intros es'. destruct (closing_run P env handler ms x0 es' y' E1) as [_ ->]. exact E3.
Qed.

(** So one caller's handler takes the connection from all: here the second call
    never reaches its handler (defect: the same exception from TServer's loops
    would do so too, C29). *)
Theorem C65_transport_refuted : exists es,
  let y := xrun (binary bdefault) rpc_env later rpc_ms tt es (xstart 0) in
  xcalls es = [(rpc_add, [Some (VInt 1); Some (VInt 2)]); (rpc_add, [Some (VInt 3); Some (VInt 4)])]
  /\ (forall n, ~ In (XFire 1 n) es) /\ length (w_calls (x_sv y)) = 1%nat
  /\ c_log (x_cl y) = [LIssue 1 0; LIssue 2 1; LFire 1 FLost; LFire 0 FLost].
Proof.
  exists [XCall rpc_add [Some (VInt 1); Some (VInt 2)]; XUp 1000; XFire 0 (HTransport 0);
          XCall rpc_add [Some (VInt 3); Some (VInt 4)]; XUp 1000; XLost].
  split; [reflexivity|]. split.
  - intros n I. cbn in I. repeat (destruct I as [I|I]; [discriminate I|]). destruct I.
  - vm_compute. split; reflexivity.
Qed.

(** * A result that cannot be encoded *)

Definition too_big (z : Z) : Prop := z < -2147483648 \/ 2147483647 < z.
Lemma garbled_write bf SL CL env m q z :
  b_limits bf SL CL -> strictWrite bf = true -> name_ok SL (m_name m) -> seq_ok q ->
  method_ok env m -> m_ret m = Some TI32 -> too_big z ->
  write_message (binary bf) (m_name m) REPLY q env (m_result m)
    (success_result m (Some (VInt z))) (mkst tt [] [] 0)
  = (Raise EStructError, mkst tt [] (sb_message true (m_name m) REPLY q ++ [x08; x00; x00]) 0).
Proof.
  intros HL Hs Hn Hq Hm Hr Hz. unfold write_message, bind at 1.
  change (writeMessageBegin (binary bf)) with (b_writeMessageBegin bf).
  rewrite (b_writeMessage_ok bf SL) by (try apply HL; try assumption; rewrite ?Hs; unfold REPLY; lia).
  unfold wr_ok. rewrite Hs. cbn [px inp out depth app].
  unfold success_result, write_struct. rewrite Hr. unfold bind at 1.
  cbn [write_value]. unfold method_ok, result_fields in Hm. rewrite Hm, Hr. cbn [app].
  assert (V : forall xs : list (Z * nat), validate (map xfield xs) (map (fun _ => None) xs) = true).
  { induction xs as [|x r IH]; [reflexivity|]. exact IH. }
  cbn [validate]. unfold no_xs. rewrite V.
  assert (Ep : forall s : st unit, pack_signed 4 z s = (Raise EStructError, s)).
  { intros s. unfold pack_signed. change (2 ^ (8 * Z.of_nat 4 - 1)) with 2147483648.
    unfold too_big in Hz.
    replace ((- (2147483648) <=? z) && (z <? 2147483648)) with false by lia. reflexivity. }
  unfold with_depth, increment_recursion_depth, try_finally, bind. cbn.
  unfold b_writeI32, bind. rewrite Ep. cbn.
  rewrite <- !app_assoc. reflexivity.
Qed.
Lemma read_byte0 b tail o d :
  b_readByte (mkst tt (b :: tail) o d) = (Ok (unpack_signed 1 [b]), mkst tt tail o d).
Proof.
  unfold b_readByte, bind. pose proof (readAll_app unit [b] tail tt o d) as H.
  cbn [app length] in H. change (Z.of_nat 1) with 1 in H. rewrite H. reflexivity.
Qed.

Lemma read_short0 b c tail o d :
  b_readI16 (mkst tt (b :: c :: tail) o d) = (Ok (unpack_signed 2 [b; c]), mkst tt tail o d).
Proof.
  unfold b_readI16, bind. pose proof (readAll_app unit [b; c] tail tt o d) as H.
  cbn [app length] in H. change (Z.of_nat 2) with 2 in H. rewrite H. reflexivity.
Qed.

Lemma garbled_fields bf k F rv ds acc rest d :
  find_field ds 0 = Some (O, mkfield 0 TI32 false None) ->
  rv TI32 = (z <- b_readI32 ;; ret (VInt z)) ->
  read_fields (binary bf) (S (S k)) F rv ds acc
    (mkst tt (x08 :: x00 :: x00 :: x80 :: x01 :: x00 :: x03 :: x00 :: rest) [] d)
  = (Ok (set_nth 0 (Some (VInt (-2147418109))) acc), mkst tt rest [] d).
Proof.
  intros Hf Hv. cbn [read_fields]. unfold bind at 1.
  assert (E : readFieldBegin (binary bf)
      (mkst tt (x08 :: x00 :: x00 :: x80 :: x01 :: x00 :: x03 :: x00 :: rest) [] d)
    = (Ok (8, 0), mkst tt (x80 :: x01 :: x00 :: x03 :: x00 :: rest) [] d)).
  { change (readFieldBegin (binary bf)) with b_readFieldBegin.
    unfold b_readFieldBegin, bind. rewrite read_byte0. cbv beta iota.
    change (unpack_signed 1 [x08]) with 8. change (8 =? T_STOP) with false. cbv iota.
    cbv beta. rewrite read_short0. reflexivity. }
  rewrite E. change (8 =? T_STOP) with false. cbv iota. rewrite Hf.
  change (8 =? code (f_ty (mkfield 0 TI32 false None))) with true. cbv iota.
  change (f_ty (mkfield 0 TI32 false None)) with TI32. rewrite Hv.
  unfold bind. rewrite b_readI32_bytes.
  change (to_signed 4 _) with (-2147418109). cbn [ret].
  change (readFieldEnd (binary bf)) with (@ret (st unit) unit tt). unfold ret at 1 2.
  assert (E2 : readFieldBegin (binary bf) (mkst tt (x00 :: rest) [] d)
    = (Ok (0, 0), mkst tt rest [] d)).
  { change (readFieldBegin (binary bf)) with b_readFieldBegin.
    unfold b_readFieldBegin, bind. rewrite read_byte0. reflexivity. }
  rewrite E2. reflexivity.
Qed.

Lemma garbled_read bf env m rest k : method_ok env m -> m_ret m = Some TI32 ->
  exists v, read_struct (binary bf) env DFUEL (S (S k)) (m_result m)
    (mkst tt ([x08; x00; x00; x80; x01; x00; x03; x00] ++ rest) [] 0)
  = (Ok (VStruct (m_result m) (Some (VInt (-2147418109)) :: v)), mkst tt rest [] 0).
Proof.
  intros Hm Hr. unfold method_ok, result_fields in Hm. rewrite Hr in Hm.
  exists (fresh (map xfield (m_xs m))).
  change DFUEL with (S 64). remember 64%nat as D. cbn [read_struct]. rewrite Hm. clear HeqD.
  unfold with_depth, increment_recursion_depth, try_finally. unfold bind at 1.
  cbn [depth px inp out]. change (0 + 1 >? DEFAULT_RECURSION_DEPTH) with false.
  cbv iota.
  unfold bind at 1.
  change (readStructBegin (binary bf)) with (@ret (st unit) unit tt). unfold ret at 1.
  unfold bind at 1. cbn [app].
  rewrite garbled_fields by reflexivity.
  change (readStructEnd (binary bf)) with (@ret (st unit) unit tt).
  unfold bind, ret, decrement_recursion_depth. cbn [px inp out depth]. reflexivity.
Qed.

(** The UTF-8 form of the name is shorter than 2^24 bytes. *)
Definition short_name (name : list Z) : Prop :=
  exists b, utf8_encode name = Some b /\ Z.of_nat (length b) < 16777216.

Theorem C65_wrong_result : forall bf SL CL env ms m q z,
  b_limits bf SL CL -> strictWrite bf = true -> 14 <= SL ->
  service_ok env SL ms -> In m ms -> m_oneway m = false -> m_ret m = Some TI32 ->
  short_name (m_name m) -> seq_ok q -> too_big z ->
  exists frame, tw_answer (binary bf) env tt m q (HReturn (Some (VInt z))) = Some frame
    /\ decode (binary bf) env (length frame) ms tt frame
       = RGood q (CReturn (Some (VInt (-2147418109)))).
Proof.
  intros bf SL CL env ms m q z HL Hs HSL Hms Hin Ho Hr (b & Eb & Hb) Hq Hz.
  destruct (proj2 Hms m Hin) as [Hn Hm]. specialize (Hm Ho).
  assert (Hst : strictWrite bf = false -> strictRead bf = false) by congruence.
  set (L := binary_mlaws bf SL CL HL Hst).
  pose proof (garbled_write bf SL CL env m q z HL Hs Hn Hq Hm Hr Hz) as E1.
  destruct (write_message_ok L (m_name m) EXCEPTION q app_env 0 internal_error tt []
    (sb_message true (m_name m) REPLY q ++ [x08; x00; x00]) Logic.I Hn
    ltac:(unfold mtype_ok, EXCEPTION; lia) Hq app_env_ok
    ltac:(apply app_exn_wf; [reflexivity|apply internal_error_ok; lia]) ltac:(cbn; lia))
    as (x' & E2).
  eexists. split.
  - unfold tw_answer. rewrite Ho, E1. unfold tw_exception. rewrite E2. cbn [out]. reflexivity.
  - assert (Em : message L (m_name m) EXCEPTION q app_env 0 internal_error
      = [x80; x01; x00; x03; x00] ++ skipn 5 (message L (m_name m) EXCEPTION q app_env 0 internal_error)).
    { unfold L. rewrite b_msg_eq. unfold b_msg, sb_message, sb_string, sb_binary. rewrite Hs, Eb.
      unfold int32. rewrite (Z.div_small (Z.of_nat (length b)) 16777216) by lia.
      reflexivity. }
    rewrite Em. set (rest := skipn 5 _). rewrite <- !app_assoc.
    cbn [app]. unfold decode.
    change (readMessageBegin (binary bf)) with (b_readMessageBegin bf).
    rewrite (b_readMessage_strict bf SL CL) by (try assumption; unfold REPLY; lia).
    rewrite (lookup_two_way (SL:=SL) env ms Hms m Hin Ho).
    change (REPLY =? EXCEPTION) with false. cbv iota.
    remember (length (sb_message true (m_name m) REPLY q
      ++ x08 :: x00 :: x00 :: x80 :: x01 :: x00 :: x03 :: x00 :: rest)) as F eqn:EF.
    assert (HF : (2 <= F)%nat) by (rewrite EF, app_length; cbn [length]; lia).
    destruct F as [|[|k]]; [lia|lia|].
    destruct (garbled_read bf env m rest k Hm Hr) as (v & Er).
    unfold bind. cbn [app] in Er. rewrite Er. cbn [ret].
    change (readMessageEnd (binary bf) (mkst tt rest [] 0)) with (Ok tt, mkst tt rest [] 0).
    cbn [ret]. unfold result_of. rewrite Hr. reflexivity.
Qed.

Lemma no_xs_valid (xs : list (Z * nat)) : validate (map xfield xs) (map (fun _ => None) xs) = true.
Proof. induction xs as [|x r IH]; [reflexivity|]. exact IH. Qed.

Lemma lost_write kf SL CL env m q z : c_limits kf SL CL -> name_ok SL (m_name m) -> seq_ok q ->
  method_ok env m -> m_ret m = Some TI32 -> too_big z ->
  exists s, write_message (compact kf) (m_name m) REPLY q env (m_result m)
    (success_result m (Some (VInt z))) (mkst c_init [] [] 0)
  = (Raise (EProtocol TP_INVALID_DATA), s) /\ state (px s) = VALUE_WRITE.
Proof.
  intros HL Hn Hq Hm Hr Hz. unfold write_message, bind at 1.
  change (writeMessageBegin (compact kf)) with c_writeMessageBegin.
  rewrite (c_writeMessage_ok _ _ _ _ _ _ _ SL) by
    (try reflexivity; try apply HL; try assumption; unfold REPLY; try lia;
     apply between_spec; exact Hq).
  cbn [app].
  unfold success_result, write_struct. rewrite Hr. unfold bind at 1.
  cbn [write_value]. unfold method_ok, result_fields in Hm. rewrite Hm, Hr. cbn [app].
  cbn [validate]. unfold no_xs. rewrite no_xs_valid.
  assert (Ep : forall s : st cst, makeZigZag z 32 s = (Raise (EProtocol TP_INVALID_DATA), s)).
  { intros s. unfold makeZigZag, bind, checkIntegerLimits.
    change (2 ^ (32 - 1)) with 2147483648. unfold too_big in Hz.
    replace ((z <? - (2147483648)) || (2147483648 - 1 <? z)) with true by lia. reflexivity. }
  unfold with_depth, increment_recursion_depth, try_finally, bind.
  set (g := sc_message _ _ _). clearbody g.
  cbn. unfold c_writeI32, writer, bind. cbn. rewrite Ep. cbn.
  eexists. split; reflexivity.
Qed.

Theorem C65_lost_result : forall kf SL CL env ms m q z,
  c_limits kf SL CL -> service_ok env SL ms -> In m ms -> m_oneway m = false ->
  m_ret m = Some TI32 -> seq_ok q -> too_big z ->
  tw_answer (compact kf) env c_init m q (HReturn (Some (VInt z))) = None.
Proof.
  intros kf SL CL env ms m q z HL Hms Hin Ho Hr Hq Hz.
  destruct (proj2 Hms m Hin) as [Hn Hm]. specialize (Hm Ho).
  destruct (lost_write kf SL CL env m q z HL Hn Hq Hm Hr Hz) as (s & E & Es).
  unfold tw_answer. rewrite Ho, E. unfold tw_exception, write_message, bind.
  change (writeMessageBegin (compact kf)) with c_writeMessageBegin.
  unfold c_writeMessageBegin, bind, assert_state, bind, get_px. rewrite Es. reflexivity.
Qed.

Example C65_wrong_result_ex :
  short_name (lit "add") /\ too_big 2147483648
  /\ option_map (decode (binary bdefault) rpc_env 1000 rpc_ms tt)
       (tw_answer (binary bdefault) rpc_env tt rpc_add 5 (HReturn (Some (VInt 2147483648))))
     = Some (RGood 5 (CReturn (Some (VInt (-2147418109)))))
  /\ tw_answer (compact cdefault) rpc_env c_init rpc_add 5 (HReturn (Some (VInt 2147483648))) = None.
Proof.
  split; [eexists; split; [vm_compute; reflexivity|vm_compute; reflexivity]|].
  split; [right; reflexivity|]. split; vm_compute; reflexivity.
Qed.

(** * ThriftResource *)

(** What belongs in the body of the response to a call of [m]. *)
Definition body_for (enc : list Z -> Z -> Z -> schema -> nat -> value -> list byte)
    (env : schema) (SL CL : Z) (m : method) (q : Z) (r : hres) (body : list byte) : Prop :=
  (forall t, r <> HTransport t)
  /\ (m_oneway m = true -> body = [])
  /\ (m_oneway m = false -> handler_ok env SL CL m r
      /\ exists t e n v, reply_for env m r = Some (t, e, n, v) /\ body = enc (m_name m) t q e n v).

(** A request is finished with that, at once or when the Deferred fires. *)
Definition posted {X H} (P : proto X) enc env SL CL
    (handler : list Z -> list (option value) -> H -> option hres * H) ms x0 : Prop :=
  forall m args q h r h', In m ms -> sendable env SL CL (m_args m) args -> seq_ok q ->
  handler (m_name m) (received env (m_args m) args) h = (r, h') ->
  let req := enc (m_name m) (if m_oneway m then ONEWAY else CALL) q env (m_args m)
               (VStruct (m_args m) args) in
  (r = None -> rs_post P env handler ms x0 req h = (HLater m q, h'))
  /\ (forall r0 body, r = Some r0 -> body_for enc env SL CL m q r0 body ->
        rs_post P env handler ms x0 req h = (HFinished body, h'))
  /\ (forall r0 body, body_for enc env SL CL m q r0 body ->
        rs_fired P env x0 m q r0 = HFinished body).

Lemma posted_ok {X} {P : proto X} {SL CL : Z} (L : mlaws P SL CL) enc env H
    (handler : list Z -> list (option value) -> H -> option hres * H) ms x0 :
  (forall name t q e n v, message L name t q e n v = enc name t q e n v) ->
  ml_dok L = (fun _ => true) ->
  schema_ok env -> schema_closed env = true -> service_ok env SL ms -> 14 <= SL ->
  ml_idle L x0 -> posted P enc env SL CL handler ms x0.
Proof.
  intros Enc HD He Hc Hms HSL Hx m args q h r h' Hin Ha Hq Eh req.
  assert (Ef : forall r0 body, body_for enc env SL CL m q r0 body ->
        tw_answer P env x0 m q r0 = Some body).
  { intros r0 body (A & B & C). destruct (m_oneway m) eqn:Ho.
    - unfold tw_answer. rewrite Ho, (B eq_refl). destruct r0; try reflexivity.
      exfalso. eapply A. reflexivity.
    - destruct (C eq_refl) as [Hh (t & e & n & v & Er & ->)].
      rewrite (answer_ok L env He Hc ms Hms HSL x0 Hx m q r0 Hin Hq Ho ltac:(rewrite HD; exact Hh) A).
      unfold rep. rewrite Er, Enc. reflexivity. }
  assert (Ep : tw_process P env handler ms x0 req h
     = PInvoked m q (received env (m_args m) args) r h').
  { pose proof (process_req L env He Hc handler ms Hms x0 Hx m args q h Hin Hq
      ltac:(unfold args_ok; rewrite HD; exact Ha)) as E.
    rewrite Eh in E. unfold req. rewrite <- Enc. exact E. }
  split; [|split].
  - intros ->. unfold rs_post. rewrite Ep. reflexivity.
  - intros r0 body -> Hb. unfold rs_post, rs_fired. rewrite Ep, (Ef _ _ Hb). reflexivity.
  - intros r0 body Hb. unfold rs_fired. rewrite (Ef _ _ Hb). reflexivity.
Qed.

Theorem C65_resource_binary : forall bf SL CL env H
    (handler : list Z -> list (option value) -> H -> option hres * H) ms,
  b_limits bf SL CL -> strict_ok bf -> 14 <= SL ->
  schema_ok env -> schema_closed env = true -> service_ok env SL ms ->
  posted (binary bf) (b_msg (strictWrite bf)) env SL CL handler ms tt.
Proof.
  intros bf SL CL env H handler ms HL Hs HSL He Hc Hms.
  apply (posted_ok (binary_mlaws bf SL CL HL Hs)); try assumption; [|reflexivity|exact Logic.I].
  intros. apply b_msg_eq.
Qed.

Theorem C65_resource_compact : forall kf SL CL env H
    (handler : list Z -> list (option value) -> H -> option hres * H) ms,
  c_limits kf SL CL -> 14 <= SL ->
  schema_ok env -> schema_closed env = true -> service_ok env SL ms ->
  posted (compact kf) c_msg env SL CL handler ms c_init.
Proof.
  intros kf SL CL env H handler ms HL HSL He Hc Hms.
  apply (posted_ok (compact_mlaws kf SL CL HL)); try assumption; [|reflexivity|repeat split].
  intros. apply c_msg_eq.
Qed.

Example C65_resource_ex :
  let args := [Some (VInt 1); Some (VInt 2)] in
  sendable rpc_env 100 100 (m_args rpc_add) args
  /\ (exists body, body_for (b_msg true) rpc_env 100 100 rpc_add 5 (HReturn (Some (VInt 3))) body
      /\ rs_post (binary bdefault) rpc_env
           (fun name args h => let '(r, h') := rpc_handler name args h in (Some r, h')) rpc_ms tt
           (b_msg true (lit "add") CALL 5 rpc_env 0 (VStruct 0 args)) 0 = (HFinished body, 1)).
Proof.
  split; [split; [vm_compute; reflexivity|cbn; lia]|]. eexists. split.
  - split; [intros t C; discriminate C|]. split; [intros C; discriminate C|]. intros _.
    split; [cbn; split; [reflexivity|lia]|]. do 4 eexists. split; [vm_compute; reflexivity|reflexivity].
  - vm_compute. reflexivity.
Qed.

(** But a request whose Deferred fails is never answered: [_cbProcess] is only a
    callback (defect).  A TTransportException does that in any protocol, a
    result that cannot be encoded in compact. *)
Theorem C65_resource_never : forall X (P : proto X) env x0 m q t,
  rs_fired P env x0 m q (HTransport t) = HNever.
Proof.
  intros. unfold rs_fired, tw_answer. destruct (m_oneway m); reflexivity.
Qed.

Theorem C65_resource_refuted : exists (handler : list Z -> list (option value) -> Z -> option hres * Z) args,
  sendable rpc_env 100 100 (m_args rpc_add) args
  /\ fst (rs_post (binary bdefault) rpc_env handler rpc_ms tt
            (b_msg true (lit "add") CALL 5 rpc_env 0 (VStruct 0 args)) 0) = HNever.
Proof.
  exists (fun _ _ h => (Some (HTransport 0), h)), [Some (VInt 1); Some (VInt 2)].
  split; [split; [vm_compute; reflexivity|cbn; lia]|]. vm_compute. reflexivity.
Qed.

(** * A method the server does not have *)

(** The request, whatever struct its arguments are, gets one exception message
    and invokes nothing. *)
Lemma unknown_ok {X} {P : proto X} {SL CL : Z} (L : mlaws P SL CL) env H
    (handler : list Z -> list (option value) -> H -> option hres * H) ms x0
    name type q e n args h :
  ml_idle L x0 -> lookup name ms = None -> name_ok SL name -> mtype_ok type -> seq_ok q ->
  name_ok SL (lit "Unknown function " ++ name) ->
  schema_ok e -> wfd (ml_dok L) e SL CL (TStruct n) (VStruct n args) = true ->
  (vdepth (VStruct n args) <= 64)%nat -> all_bin (ml_skbin L) (VStruct n args) = true ->
  tw_process P env handler ms x0 (message L name type q e n (VStruct n args)) h
  = PAnswered (message L name EXCEPTION q app_env 0
      (app_exn TA_UNKNOWN_METHOD (Some (lit "Unknown function " ++ name)))).
Proof.
  intros Hx Hl Hn Ht Hq Hu He Hwf Hd Hb. unfold tw_process. cbv zeta.
  set (v := VStruct n args) in *.
  change (message L name type q e n v)
    with (ml_hdr L name type q ++ (ml_body L e n v ++ ml_end L)).
  destruct (mr_begin L name type q (ml_body L e n v ++ ml_end L)
    x0 [] 0 Hx Hn Ht Hq (mt_body L _ _ _ _)) as (x1 & i1 & E1 & H1).
  rewrite E1, Hl.
  destruct (mr_skip L e n v (ml_end L ++ []) x1 i1 [] 0
    (length (ml_hdr L name type q ++ ml_body L e n v ++ ml_end L))) as (x2 & i2 & E2 & H2);
    try assumption.
  { rewrite app_nil_r. exact H1. }
  { rewrite !app_length. lia. }
  destruct (mr_end L [] x2 i2 [] 0 H2) as (x3 & E3 & H3).
  unfold bind. rewrite E2, E3.
  destruct (write_message_ok L name EXCEPTION q app_env 0
    (app_exn TA_UNKNOWN_METHOD (Some (lit "Unknown function " ++ name))) x0 [] [] Hx Hn
    ltac:(unfold mtype_ok, EXCEPTION; lia) Hq app_env_ok
    ltac:(apply app_exn_wf; [reflexivity|exact Hu]) ltac:(cbn; lia)) as (x' & E).
  rewrite E. reflexivity.
Qed.

Theorem C65_unknown_binary : forall bf SL CL env H
    (handler : list Z -> list (option value) -> H -> option hres * H) ms
    name type q e n args (y : tws H),
  b_limits bf SL CL -> strict_ok bf -> lookup name ms = None -> name_ok SL name ->
  mtype_ok type -> seq_ok q -> name_ok SL (lit "Unknown function " ++ name) ->
  schema_ok e -> wf e SL CL (TStruct n) (VStruct n args) = true ->
  (vdepth (VStruct n args) <= 64)%nat -> all_bin utf8_valid (VStruct n args) = true ->
  let answer := b_msg (strictWrite bf) name EXCEPTION q app_env 0
      (VStruct 0 [Some (VStr (lit "Unknown function " ++ name)); Some (VInt 1)]) in
  tw_string (binary bf) env handler ms tt
    (b_msg (strictWrite bf) name type q e n (VStruct n args)) y
  = (true, tw_ok None answer y).
Proof.
  intros bf SL CL env H handler ms name type q e n args y HL Hs Hl Hn Ht Hq Hu He Hwf Hd Hb answer.
  pose proof (unknown_ok (binary_mlaws bf SL CL HL Hs) env H handler ms tt name type q e n args
    (w_h y) Logic.I Hl Hn Ht Hq Hu He Hwf Hd Hb) as E.
  rewrite !b_msg_eq in E. unfold tw_string. rewrite E. reflexivity.
Qed.

Theorem C65_unknown_compact : forall kf SL CL env H
    (handler : list Z -> list (option value) -> H -> option hres * H) ms
    name type q e n args (y : tws H),
  c_limits kf SL CL -> lookup name ms = None -> name_ok SL name ->
  mtype_ok type -> seq_ok q -> name_ok SL (lit "Unknown function " ++ name) ->
  schema_ok e -> wf e SL CL (TStruct n) (VStruct n args) = true ->
  (vdepth (VStruct n args) <= 64)%nat -> all_bin utf8_valid (VStruct n args) = true ->
  let answer := c_msg name EXCEPTION q app_env 0
      (VStruct 0 [Some (VStr (lit "Unknown function " ++ name)); Some (VInt 1)]) in
  tw_string (compact kf) env handler ms c_init
    (c_msg name type q e n (VStruct n args)) y
  = (true, tw_ok None answer y).
Proof.
  intros kf SL CL env H handler ms name type q e n args y HL Hl Hn Ht Hq Hu He Hwf Hd Hb answer.
  pose proof (unknown_ok (compact_mlaws kf SL CL HL) env H handler ms c_init name type q e n args
    (w_h y) ltac:(repeat split) Hl Hn Ht Hq Hu He Hwf Hd Hb) as E.
  rewrite !c_msg_eq in E. unfold tw_string. rewrite E. reflexivity.
Qed.

Example C65_unknown_ex :
  lookup (lit "sub") rpc_ms = None
  /\ wf rpc_env 100 100 (TStruct 0) (VStruct 0 [Some (VInt 1); None]) = true
  /\ let y := tw_data (binary bdefault) rpc_env later rpc_ms tt
       (sfr (b_msg true (lit "sub") CALL 5 rpc_env 0 (VStruct 0 [Some (VInt 1); None])))
       (tws_start 0) in
     map fst (w_sent y) = [None] /\ w_calls y = [] /\ w_closing y = false.
Proof. vm_compute. repeat split. Qed.

(** * Strings that are no messages *)

(** A string whose beginning is no message header: the exception out of
    stringReceived closes the connection; nothing is invoked or sent, neither
    for it nor for anything behind it.  Posted to a ThriftResource it gives an
    error page. *)
Theorem C65_malformed : forall X H (P : proto X) env
    (handler : list Z -> list (option value) -> H -> option hres * H) ms x0 u rest y e s,
  Z.of_nat (length u) < 2147483648 -> w_closing y = false -> w_buf y = [] ->
  readMessageBegin P (mkst x0 u [] 0) = (Raise e, s) ->
  let y' := tw_data P env handler ms x0 (be_bytes 4 (Z.of_nat (length u)) ++ u ++ rest) y in
  w_closing y' = true /\ w_sent y' = w_sent y
  /\ (forall es, w_calls (srun P env handler ms x0 es y') = w_calls y)
  /\ forall h, rs_post P env handler ms x0 u h = (HFailed, h).
Proof.
  intros X H P env handler ms x0 u rest y e s Hu Hc Hb Hr.
  assert (Ep : forall h, tw_process P env handler ms x0 u h = PRaised)
    by (intros h; unfold tw_process; rewrite Hr; reflexivity).
  assert (E : tw_data P env handler ms x0 (be_bytes 4 (Z.of_nat (length u)) ++ u ++ rest) y
              = tw_error (set_buf (sfr u ++ rest) y)).
  { unfold tw_data. rewrite Hc, Hb. cbn [app]. rewrite app_assoc. fold (sfr u).
    cbn [tw_loop]. rewrite cut_sfr by exact Hu. unfold tw_string. rewrite Ep. reflexivity. }
  cbv zeta. rewrite E. split; [reflexivity|]. split; [reflexivity|]. split.
  - intros es. destruct (closing_run P env handler ms x0 es (tw_error (set_buf (sfr u ++ rest) y)) eq_refl)
      as [_ ->]. reflexivity.
  - intros h. unfold rs_post. rewrite Ep. reflexivity.
Qed.
Example C65_malformed_ex :
  readMessageBegin (binary bdefault) (mkst tt [x80; x01] [] 0) = (Raise EEOFError, mkst tt [] [] 0)
  /\ w_closing (tw_data (binary bdefault) rpc_env later rpc_ms tt
       [x00; x00; x00; x02; x80; x01] (tws_start 0)) = true.
Proof. vm_compute. auto. Qed.

(** A reply nobody asked for, or one already given: the client closes the
    connection and everybody still waiting is told so, last caller first. *)
Lemma lost_all : forall n c, length (c_reqs c) = n -> c_alive c = true ->
  Twisted.run quiet (S n) [WLost] c
  = ([], mkclient (c_seq c) (c_next c) [] false
           (c_log c ++ map (fun e => LFire (snd e) FLost) (rev (c_reqs c)))).
Proof.
  induction n as [|n IH]; intros [q d l al log] Hl Ha; cbn [c_reqs c_alive c_seq c_next c_log] in *;
    subst al.
  - destruct l; [|discriminate Hl]. cbn. rewrite app_nil_r. reflexivity.
  - destruct (rev l) as [|[k e] r] eqn:Er.
    + apply (f_equal (@rev _)) in Er. rewrite rev_involutive in Er. subst l. discriminate Hl.
    + change (Twisted.run quiet (S (S n)) [WLost] (mkclient q d l true log))
        with (let '(ws', s') := do_lost quiet (mkclient q d l true log) in
              Twisted.run quiet (S n) (ws' ++ []) s').
      unfold do_lost. cbn [c_alive c_reqs]. unfold popitem. rewrite Er.
      unfold fire, quiet at 1, logc, set_reqs. cbn [map app c_seq c_next c_reqs c_alive c_log].
      rewrite IH.
      * cbn [c_seq c_next c_reqs c_log]. rewrite rev_involutive. cbn [map snd].
        rewrite <- app_assoc. reflexivity.
      * cbn [c_reqs]. rewrite rev_length.
        assert (length (rev l) = S n) as El by (rewrite rev_length; exact Hl).
        rewrite Er in El. cbn in El. lia.
      * reflexivity.
Qed.

Theorem C65_stray_reply : forall X H (P : proto X) env ms x0 (y : xsys H) u rest q oc,
  Z.of_nat (length u) < 2147483648 -> c_alive (x_cl y) = true -> x_in y = [] ->
  decode P env (length u) ms x0 u = RGood q oc -> ~ In q (map fst (c_reqs (x_cl y))) ->
  let c := x_cl (cl_data P env ms x0 (be_bytes 4 (Z.of_nat (length u)) ++ u ++ rest) y) in
  c_alive c = false /\ c_reqs c = []
  /\ c_log c = c_log (x_cl y) ++ LRaised
               :: map (fun e => LFire (snd e) FLost) (rev (c_reqs (x_cl y))).
Proof.
  intros X H P env ms x0 y u rest q oc Hu Ha Hi Hd Hq.
  assert (Hp : pop q (c_reqs (x_cl y)) = None).
  { induction (c_reqs (x_cl y)) as [|[k d] l IH]; [reflexivity|]. cbn [pop map fst In] in *.
    destruct (Z.eqb_spec k q) as [->|]; [exfalso; apply Hq; left; reflexivity|].
    rewrite IH; [reflexivity|]. intros I. apply Hq. right. exact I. }
  cbv zeta. unfold cl_data. rewrite Ha, Hi. cbn [app]. rewrite app_assoc. fold (sfr u).
  cbn [cl_loop]. rewrite cut_sfr by exact Hu. rewrite Hd, Hp. cbn [x_cl].
  unfold do_frame. rewrite Ha, Hp. cbn [snd]. unfold cl_lost.
  rewrite (lost_all (length (c_reqs (logc LRaised (x_cl y))))); [|reflexivity|exact Ha].
  cbn [snd c_alive c_reqs c_log logc]. rewrite <- app_assoc. repeat split.
Qed.
Example C65_stray_reply_ex :
  let u := b_msg true (lit "add") REPLY 9 rpc_env 1 (VStruct 1 [Some (VInt 3)]) in
  let y := xrun (binary bdefault) rpc_env later rpc_ms tt
             [XCall rpc_add [Some (VInt 1); Some (VInt 2)];
              XCall rpc_add [Some (VInt 3); Some (VInt 4)]] (xstart 0) in
  decode (binary bdefault) rpc_env (length u) rpc_ms tt u = RGood 9 (CReturn (Some (VInt 3)))
  /\ map fst (c_reqs (x_cl y)) = [1; 2]
  /\ c_log (x_cl (cl_data (binary bdefault) rpc_env rpc_ms tt (sfr u) y))
     = [LIssue 1 0; LIssue 2 1; LRaised; LFire 1 FLost; LFire 0 FLost].
Proof. vm_compute. auto. Qed.

(** * A call that cannot be encoded

    What was written of it stays in the buffer of the client's transport, and
    the next call is sent behind it: the server invokes the method with other
    arguments than either caller gave (defect). *)
Theorem C65_failed_call_refuted : exists es,
  let y := xrun (binary bdefault) rpc_env later rpc_ms tt es (xstart 0) in
  es = [XCall rpc_add [Some (VInt 2147483648); Some (VInt 2)];
        XCall rpc_add [Some (VInt 3); Some (VInt 4)]; XUp 1000]
  /\ w_calls (x_sv y) = [(lit "add", [Some (VInt (-2147418111)); Some (VInt 10)])]
  /\ c_log (x_cl y) = [LIssue 1 0; LFire 0 FSendError; LIssue 2 1].
Proof. eexists. split; [reflexivity|]. vm_compute. split; reflexivity. Qed.

(** Axioms used. *)
Print Assumptions C65_served_binary.
Print Assumptions C65_served_compact.
Print Assumptions C65_pieces.
Print Assumptions C65_pieces_refuted.
Print Assumptions C65_once.
Print Assumptions C65_transport.
Print Assumptions C65_transport_refuted.
Print Assumptions C65_wrong_result.
Print Assumptions C65_lost_result.
Print Assumptions C65_resource_binary.
Print Assumptions C65_resource_compact.
Print Assumptions C65_resource_never.
Print Assumptions C65_resource_refuted.
Print Assumptions C65_unknown_binary.
Print Assumptions C65_unknown_compact.
Print Assumptions C65_malformed.
Print Assumptions C65_stray_reply.
Print Assumptions C65_failed_call_refuted.
