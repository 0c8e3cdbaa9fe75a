(** Calls through THttpClient to a THttpServer. *)
From Coq Require Import String.
From Coq Require Import ZArith List Bool Lia.
From Coq Require Import Init.Byte.
From Coq Require Import ZifyBool ZifyNat ZifyN.
From Verif Require Import Base Bytes Utf8 Proto Spec Laws StructFacts JsonText MsgLaws Rpc
  RpcFacts RpcSys HttpServer HttpFacts Transport HttpClient HttpClientFacts.
Import ListNotations.
Open Scope Z_scope.
Open Scope list_scope.

Section Reference.
Context {H : Type}.
Variable D : Z -> bool.
Variable env : schema.
Variable handler : list Z -> list (option value) -> H -> hres * H.
Variable hung_up : exn.

(** The outcomes a client program should see, and the handler's final state:
    the handler runs once for every request that arrives, and every caller gets
    the outcome of its own call or the network's exception. *)
Fixpoint http_reference (l : list (net * method * list (option value))) (h : H)
  : list (outcome cresult) * H :=
  match l with
  | [] => ([], h)
  | (n, m, args) :: r =>
      let (res, h') := handler (m_name m) (received env (m_args m) args) h in
      let (o, h1) :=
        match n with
        | NetLostRequest e => (Raise e, h)
        | NetLostReply e => (Raise e, h')
        | NetOk =>
            (if m_oneway m then Ok (CReturn None)
             else match res with
                  | HTransport _ => Raise hung_up
                  | _ => Ok (expected env m res)
                  end, h')
        end in
      let (os, h2) := http_reference r h1 in (o :: os, h2)
  end.

(** What the handler returns can be encoded. *)
Fixpoint http_historyd (SL CL : Z) (l : list (net * method * list (option value))) (h : H)
  : Prop :=
  match l with
  | [] => True
  | (n, m, args) :: r =>
      let (res, h') := handler (m_name m) (received env (m_args m) args) h in
      match n with
      | NetLostRequest _ => http_historyd SL CL r h
      | _ => (m_oneway m = false -> handler_okd D env SL CL m res)
             /\ http_historyd SL CL r h'
      end
  end.
End Reference.

Notation http_history := (http_historyd (fun _ => true)).

Section Run.
Context {X : Type} {P : proto X} {SL CL : Z} (L : mlaws P SL CL).
Variables (env : schema).
Hypothesis Henv : schema_ok env.
Hypothesis Hclosed : schema_closed env = true.
Context {H : Type}.
Variable handler : list Z -> list (option value) -> H -> hres * H.
Variable ms : list method.
Hypothesis Hms : service_ok env SL ms.
Hypothesis HSL : 14 <= SL.
Variable x0 : X.
Hypothesis Hx0 : ml_idle L x0.
Variable cf : conf.
Variable legal : header -> bool.
Hypothesis Hlegal : forall h, legal h = true.
Variable hung_up : exn.

Notation msg := (message L).

Definition request (m : method) (args : list (option value)) : list byte :=
  msg (m_name m) (if m_oneway m then ONEWAY else CALL) 0 env (m_args m)
      (VStruct (m_args m) args).

Lemma msg_len name type seqid e n v :
  (length (ml_body L e n v ++ ml_end L) <= length (msg name type seqid e n v))%nat.
Proof. clear. unfold message. rewrite !app_length. lia. Qed.

Lemma mtype_sent m : mtype_ok (if m_oneway m then ONEWAY else CALL).
Proof. unfold mtype_ok, ONEWAY, CALL; destruct (m_oneway m); lia. Qed.

Lemma request_begin m args : name_ok SL (m_name m) ->
  exists s, readMessageBegin P (mkst x0 (request m args) [] 0)
            = (Ok (m_name m, if m_oneway m then ONEWAY else CALL, 0), s).
Proof.
  intros Hn. unfold request, message.
  destruct (mr_begin L (m_name m) _ 0
    (ml_body L env (m_args m) (VStruct (m_args m) args) ++ ml_end L) x0 [] 0 Hx0 Hn
    (mtype_sent m) eq_refl (mt_body L _ _ _ _)) as (x1 & i1 & E1 & _).
  eexists. exact E1.
Qed.

(** What the client is answered, and what the handler is left with. *)
Lemma served_two m args h h' r : In m ms -> m_oneway m = false ->
  args_ok L env (m_args m) args ->
  handler (m_name m) (received env (m_args m) args) h = (r, h') ->
  handler_okd (ml_dok L) env SL CL m r -> (forall t, r <> HTransport t) ->
  exists hd rp, served P env handler ms x0 hung_up (request m args) h
                = (Answered (mkresp 200 hd rp), h')
    /\ reply_bytes L env m (expected env m r) rp.
Proof.
  intros Hi Ho Ha Hr Hh Htr.
  destruct Hms as [Hnd Hall]. destruct (Hall m Hi) as [Hn Hm].
  pose proof (lookup_unique _ _ Hnd Hi) as Hl.
  destruct (request_begin m args Hn) as (s1 & E1).
  set (rq := request m args) in *.
  assert (Htraced : traced handler (m_name m) (received env (m_args m) args)
            (mkworld [] false h)
          = (r, mkworld [Call (m_name m) (received env (m_args m) args)] false h')).
  { unfold traced. cbn [w_h w_trace w_replied]. rewrite Hr. reflexivity. }
  destruct (process_request L env Henv Hclosed (traced handler) ms m CALL args 0 [] [] [] []
      x0 x0 [] (mkworld [] false h) _ r (length rq)
      HSL Hx0 Hx0 Hl Hn ltac:(unfold mtype_ok, CALL; lia) eq_refl Ha Htraced Ho (Hm Ho) Hh Htr)
      as (e & n & v & Er & s' & Ep & (xi' & xo' & -> & Hxi' & Hxo')).
  { unfold rq, request. rewrite Ho. apply Nat.le_refl. }
  destruct (reply_for_ok (ml_dok L) env SL CL m (Hm Ho) HSL Henv Hclosed r Hh Htr)
    as (e' & n' & v' & Er' & He & Hc & Hwf' & Hd' & Hmt & Hk).
  assert (e' = e) by congruence. assert (n' = n) by congruence.
  assert (v' = v) by congruence. subst e' n' v'. clear Er'.
  set (rp := msg (m_name m) (reply_type m r) 0 e n v) in *.
  eexists. exists rp. split.
  - unfold served.
    destruct (post_eq P env handler (length rq) ms x0
      (mkreq (Some (Z.of_nat (length rq))) rq) h _ _ _ _ _ eq_refl E1) as (-> & _).
    rewrite Ho. unfold begun, last_response. change (CALL =? ONEWAY) with false. cbv iota.
    assert (Erq : msg (m_name m) CALL 0 env (m_args m) (VStruct (m_args m) args) = rq)
      by (unfold rq, request; rewrite Ho; reflexivity).
    rewrite app_nil_r, Erq in Ep.
    change (with_world _ _) with
      (mkss (mkst x0 rq [] 0) (mkst x0 [] [] 0) [] (mkworld [] false h)).
    rewrite Ep. cbn [fst snd s_h w_trace w_h app first_response].
    unfold getvalue. cbn [s_sent s_out out concat app]. rewrite !app_nil_r. reflexivity.
  - intros xc2 tail sent F Hxc2 HF.
    destruct (recv_reply L env m (m_name m) 0 e n v (reply_type m r) tail xc2 [] sent
      F Hxc2 Hn Hmt eq_refl He Hc Hwf' Hd') as (x2 & Erc & Hx2).
    { pose proof (msg_len (m_name m) (reply_type m r) 0 e n v) as Hlen.
      rewrite app_length in Hlen. unfold rp in HF. lia. }
    { destruct (reply_type m r =? EXCEPTION); tauto. }
    exists x2. split; [|exact Hx2]. fold rp in Erc. rewrite Erc. f_equal. f_equal.
    destruct (reply_type m r =? EXCEPTION); destruct Hk as (_ & _ & ->); reflexivity.
Qed.

(** However the handler of a one-way method ends. *)
Lemma served_one m args h h' r : In m ms -> m_oneway m = true ->
  args_ok L env (m_args m) args ->
  handler (m_name m) (received env (m_args m) args) h = (r, h') ->
  exists hd, served P env handler ms x0 hung_up (request m args) h
             = (Answered (mkresp 200 hd []), h').
Proof.
  intros Hi Ho Ha Hr.
  destruct Hms as [Hnd Hall]. destruct (Hall m Hi) as [Hn Hm].
  pose proof (lookup_unique _ _ Hnd Hi) as Hl.
  destruct (request_begin m args Hn) as (s1 & E1).
  set (rq := request m args) in *.
  set (w := mkworld [Response None []] true h).
  assert (Htraced : traced handler (m_name m) (received env (m_args m) args) w
          = (r, mkworld [Response None []; Call (m_name m) (received env (m_args m) args)]
                  true h')).
  { unfold traced, w. cbn [w_h w_trace w_replied]. rewrite Hr. reflexivity. }
  assert (Hp : exists o s', process P env (traced handler) (length rq) ms
      (mkss (mkst x0 rq [] 0) (mkst x0 [] [] 0) [] w) = (o, s')
      /\ s_h s' = mkworld [Response None []; Call (m_name m) (received env (m_args m) args)]
                  true h').
  { assert (Erq : rq = msg (m_name m) ONEWAY 0 env (m_args m) (VStruct (m_args m) args) ++ [])
      by (rewrite app_nil_r; unfold rq, request; rewrite Ho; reflexivity).
    destruct (process_header L env (traced handler) ms (length rq) (m_name m) ONEWAY 0 env
      (m_args m) (VStruct (m_args m) args) [] x0 [] (mkst x0 [] [] 0) [] w Hx0 Hn
      ltac:(unfold mtype_ok, ONEWAY; lia) eq_refl) as (x1 & i1 & Ep & H1).
    rewrite <- Erq in Ep. rewrite Ep. unfold dispatch. rewrite Hl.
    destruct (process_function_start L env Henv Hclosed (traced handler) m args 0 Ha
      [] [] [] x1 x0 i1 [] w _ r (length rq) H1 Htraced) with (oo := @nil byte)
      as (x2 & E2 & _).
    { unfold request_body. rewrite Erq, app_nil_r. apply msg_len. }
    rewrite E2. destruct r; rewrite ?Ho; eexists; eexists; split; reflexivity. }
  destruct Hp as (o & s' & Ep & Es).
  eexists. unfold served.
  destruct (post_eq P env handler (length rq) ms x0
    (mkreq (Some (Z.of_nat (length rq))) rq) h _ _ _ _ _ eq_refl E1) as (-> & _).
  rewrite Ho. unfold begun, last_response. change (ONEWAY =? ONEWAY) with true. cbv iota.
  change (with_world _ _) with (mkss (mkst x0 rq [] 0) (mkst x0 [] [] 0) [] w).
  rewrite Ep. cbn [fst snd]. rewrite Es. reflexivity.
Qed.

(** A two-way handler that raises TTransportException. *)
Lemma served_hung m args h h' t : In m ms -> m_oneway m = false ->
  args_ok L env (m_args m) args ->
  handler (m_name m) (received env (m_args m) args) h = (HTransport t, h') ->
  served P env handler ms x0 hung_up (request m args) h = (Unanswered hung_up, h').
Proof.
  intros Hi Ho Ha Hr.
  destruct Hms as [Hnd Hall]. destruct (Hall m Hi) as [Hn Hm].
  pose proof (lookup_unique _ _ Hnd Hi) as Hl.
  destruct (request_begin m args Hn) as (s1 & E1).
  set (rq := request m args) in *.
  set (w := mkworld [] false h).
  assert (Htraced : traced handler (m_name m) (received env (m_args m) args) w
          = (HTransport t, mkworld [Call (m_name m) (received env (m_args m) args)] false h')).
  { unfold traced, w. cbn [w_h w_trace w_replied]. rewrite Hr. reflexivity. }
  assert (Hp : exists s', process P env (traced handler) (length rq) ms
      (mkss (mkst x0 rq [] 0) (mkst x0 [] [] 0) [] w) = (Raise (ETransport t), s')
      /\ s_h s' = mkworld [Call (m_name m) (received env (m_args m) args)] false h').
  { assert (Erq : rq = msg (m_name m) CALL 0 env (m_args m) (VStruct (m_args m) args) ++ [])
      by (rewrite app_nil_r; unfold rq, request; rewrite Ho; reflexivity).
    destruct (process_header L env (traced handler) ms (length rq) (m_name m) CALL 0 env
      (m_args m) (VStruct (m_args m) args) [] x0 [] (mkst x0 [] [] 0) [] w Hx0 Hn
      ltac:(unfold mtype_ok, CALL; lia) eq_refl) as (x1 & i1 & Ep & H1).
    rewrite <- Erq in Ep. rewrite Ep. unfold dispatch. rewrite Hl.
    destruct (process_function_start L env Henv Hclosed (traced handler) m args 0 Ha
      [] [] [] x1 x0 i1 [] w _ (HTransport t) (length rq) H1 Htraced) with (oo := @nil byte)
      as (x2 & E2 & _).
    { unfold request_body. rewrite Erq, app_nil_r. apply msg_len. }
    rewrite E2. eexists. split; reflexivity. }
  destruct Hp as (s' & Ep & Es).
  unfold served.
  destruct (post_eq P env handler (length rq) ms x0
    (mkreq (Some (Z.of_nat (length rq))) rq) h _ _ _ _ _ eq_refl E1) as (-> & _).
  rewrite Ho. unfold begun, last_response. change (CALL =? ONEWAY) with false. cbv iota.
  change (with_world _ _) with (mkss (mkst x0 rq [] 0) (mkst x0 [] [] 0) [] w).
  rewrite Ep. cbn [fst snd]. rewrite Es. reflexivity.
Qed.

(** Between calls: nothing left to send; the unread part of the last response
    does not matter. *)
Definition between_calls (h : H) (y : hsys (X:=X) (H:=H)) : Prop :=
  ml_idle L (y_px y) /\ y_depth y = 0 /\ c_wbuf (y_http y) = [] /\ y_h y = h.

Lemma unread_set c o : unread (set_io c (unread c) o) = unread c.
Proof. unfold unread, set_io. cbn [c_resp]. destruct (c_resp c); reflexivity. Qed.

Lemma send_flush n m args y h : between_calls h y -> name_ok SL (m_name m) ->
  args_ok L env (m_args m) args ->
  exists x' c, ml_idle L x' /\ c_wbuf c = request m args
    /\ http_send P env handler ms x0 cf legal hung_up n m args y
       = http_flush P env handler ms x0 cf legal hung_up n (mkhsys x' 0 c h).
Proof.
  intros (Hx & Hd & Hb & Hh) Hn [Hwf Hsd]. destruct y as [x d c h1].
  cbn [y_px y_depth y_http y_h] in *. subst d h1.
  unfold http_send. set (ty := if m_oneway m then ONEWAY else CALL).
  destruct (mw_begin L (m_name m) ty 0 x (unread c) [] 0 Hx Hn (mtype_sent m) eq_refl)
    as (x1 & E1 & H1).
  destruct (mw_body L env (m_args m) (VStruct (m_args m) args) x1 (unread c)
     ([] ++ ml_hdr L (m_name m) ty 0) H1 Henv Hwf Hsd) as (x2 & E2 & H2).
  destruct (mw_end L x2 (unread c) (([] ++ ml_hdr L (m_name m) ty 0)
    ++ ml_body L env (m_args m) (VStruct (m_args m) args)) 0 H2) as (x3 & E3 & H3).
  exists x3. eexists. split; [exact H3|]. split; cycle 1.
  - unfold bind. unfold on_http at 1. cbn [y_px y_depth y_http y_h]. rewrite Hb, E1.
    cbn [px inp out depth]. unfold on_http at 1. cbn [y_px y_depth y_http y_h].
    rewrite unread_set. cbn [set_io c_wbuf]. rewrite E2. cbn [px inp out depth].
    unfold on_http at 1. cbn [y_px y_depth y_http y_h].
    change (mkhc ([] ++ ml_hdr L (m_name m) ty 0) (c_conn c)
              (match c_resp c with Some _ => Some (unread c) | None => None end)
              (c_code c) (c_hdrs c) (c_custom c) (c_next c) (c_log c))
      with (set_io c (unread c) ([] ++ ml_hdr L (m_name m) ty 0)).
    assert (Eu : forall o, unread (set_io (set_io c (unread c) o) (unread c)
       (o ++ ml_body L env (m_args m) (VStruct (m_args m) args))) = unread c).
    { intros o. unfold unread, set_io. cbn [c_resp]. destruct (c_resp c); reflexivity. }
    rewrite Eu. cbn [set_io c_wbuf]. rewrite E3. cbn [px inp out depth]. reflexivity.
  - cbn [set_io c_wbuf]. unfold request, message. cbn [app]. rewrite <- app_assoc. reflexivity.
Qed.

Lemma http_call_ok n m args y h : between_calls h y -> In m ms ->
  args_ok L env (m_args m) args ->
  http_historyd (ml_dok L) env handler SL CL [(n, m, args)] h ->
  let r := http_reference env handler hung_up [(n, m, args)] h in
  exists y', http_call P env handler ms x0 cf legal hung_up n m args y
             = (hd Diverge (fst r), y')
    /\ between_calls (snd r) y'.
Proof.
  intros Hy Hi Ha Hg. destruct Hms as [Hnd Hall]. destruct (Hall m Hi) as [Hn Hm].
  destruct (send_flush n m args y h Hy Hn Ha) as (x' & c & Hx' & Hc & E).
  unfold http_call. unfold bind. rewrite E. clear E. unfold http_flush.
  cbn [y_px y_depth y_http y_h]. rewrite Hc.
  cbn [http_historyd http_reference] in *.
  destruct (handler (m_name m) (received env (m_args m) args) h) as [r h'] eqn:Hr.
  cbn [fst snd hd] in *.
  destruct n as [|e|e].
  - destruct Hg as [Hok _]. cbn [transfer].
    destruct (m_oneway m) eqn:Ho.
    + destruct (served_one m args h h' r Hi Ho Ha Hr) as (hd1 & ->).
      rewrite (flush_eq cf legal Hlegal). cbn [fst snd hd]. unfold ret.
      eexists. split; [reflexivity|]. repeat split; assumption.
    + assert (Hcase : (exists t, r = HTransport t) \/ (forall t, r <> HTransport t))
        by (destruct r; try (right; discriminate); left; eauto).
      destruct Hcase as [[t ->]|Htr].
      * rewrite (served_hung m args h h' t Hi Ho Ha Hr).
        rewrite (flush_eq cf legal Hlegal). cbn [fst snd hd].
        eexists. split; [reflexivity|]. repeat split; assumption.
      * destruct (served_two m args h h' r Hi Ho Ha Hr (Hok eq_refl) Htr)
          as (hd1 & rp & -> & Hrp).
        rewrite (flush_eq cf legal Hlegal). cbn zeta. unfold http_recv.
        cbn [y_px y_depth y_http y_h unread c_resp r_body c_wbuf].
        destruct (Hrp x' [] [] (length rp) Hx' (Nat.le_refl _)) as (x2 & E2 & Hx2).
        rewrite app_nil_r in E2. rewrite E2. cbn [cl px inp out depth].
        eexists. split.
        { destruct r; try reflexivity. exfalso. eapply Htr; reflexivity. }
        cbn [fst snd hd]. repeat split; try assumption.
  - cbn [transfer]. rewrite (flush_eq cf legal Hlegal). cbn [fst snd hd].
    eexists. split; [reflexivity|]. repeat split; assumption.
  - cbn [transfer]. destruct Hg as [Hok _].
    assert (Es : snd (served P env handler ms x0 hung_up (request m args) h) = h').
    { destruct (m_oneway m) eqn:Ho.
      - destruct (served_one m args h h' r Hi Ho Ha Hr) as (hd1 & ->). reflexivity.
      - assert (Hcase : (exists t, r = HTransport t) \/ (forall t, r <> HTransport t))
          by (destruct r; try (right; discriminate); left; eauto).
        destruct Hcase as [[t ->]|Htr].
        + rewrite (served_hung m args h h' t Hi Ho Ha Hr). reflexivity.
        + destruct (served_two m args h h' r Hi Ho Ha Hr (Hok eq_refl) Htr)
            as (hd1 & rp & -> & _). reflexivity. }
    rewrite Es. rewrite (flush_eq cf legal Hlegal). cbn [fst snd hd].
    eexists. split; [reflexivity|]. repeat split; assumption.
Qed.

Theorem http_calls_ok l : forall h y,
  (forall n m args, In (n, m, args) l ->
     In m ms /\ args_ok L env (m_args m) args) ->
  http_historyd (ml_dok L) env handler SL CL l h -> between_calls h y ->
  exists y', http_calls P env handler ms x0 cf legal hung_up l y
             = (fst (http_reference env handler hung_up l h), y')
    /\ between_calls (snd (http_reference env handler hung_up l h)) y'.
Proof.
  induction l as [|[[n m] args] l IH]; intros h y Hall Hg Hy.
  - exists y. split; [reflexivity|exact Hy].
  - destruct (Hall n m args (or_introl eq_refl)) as [Hi Ha].
    assert (Hg1 : http_historyd (ml_dok L) env handler SL CL [(n, m, args)] h
      /\ http_historyd (ml_dok L) env handler SL CL l
           (snd (http_reference env handler hung_up [(n, m, args)] h))).
    { cbn [http_historyd http_reference] in *.
      destruct (handler (m_name m) (received env (m_args m) args) h) as [r h'].
      destruct n; cbn [snd]; tauto. }
    destruct Hg1 as [Hg1 Hg2].
    destruct (http_call_ok n m args y h Hy Hi Ha Hg1) as (y1 & E1 & Hy1).
    destruct (IH _ y1 (fun n m a Hin => Hall n m a (or_intror Hin)) Hg2 Hy1)
      as (y2 & E2 & Hy2).
    exists y2. cbn [http_calls]. rewrite E1, E2. clear - Hy2.
    cbn [http_reference] in *.
    destruct (handler (m_name m) (received env (m_args m) args) h) as [r h'].
    destruct (match n with
              | NetOk => _ | NetLostRequest e => (Raise e, h) | NetLostReply e => (Raise e, h')
              end) as [o h1] eqn:E.
    cbn [fst snd hd] in *.
    destruct (http_reference env handler hung_up l h1) as [os h2]. cbn [fst snd] in *.
    split; [reflexivity|exact Hy2].
Qed.
End Run.
