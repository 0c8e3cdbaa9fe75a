(** Whole calls, histories of calls, multiplexing, and what a failed call
    leaves behind. *)
From Coq Require Import String.
From Coq Require Import ZArith List Bool Lia.
From Coq Require Import Init.Byte.
From Coq Require Import ZifyBool ZifyNat ZifyN.
From Verif Require Import Base Bytes Utf8 Proto Spec Laws StructFacts Closure FrameFacts
  InstFacts Binary BinaryLaws SpecBinary Compact CompactLaws SpecCompact CodecFacts
  MsgLaws Rpc RpcFacts.
Import ListNotations.
Open Scope Z_scope.
Open Scope list_scope.

(** The outcomes a client program should see, and the handler's final state. *)
Section Reference.
Context {H : Type}.
Variable D : Z -> bool.
Variable env : schema.
Variable handler : list Z -> list (option value) -> H -> hres * H.

Fixpoint reference (l : list (method * list (option value))) (h : H)
  : list (outcome cresult) * H :=
  match l with
  | [] => ([], h)
  | (m, args) :: r =>
      match handler (m_name m) (received env (m_args m) args) h with
      | (res, h') =>
          match reference r h' with
          | (os, h'') =>
              (Ok (if m_oneway m then CReturn None else expected env m res) :: os, h'')
          end
      end
  end.

(** Everything the handler does along the way is encodable, and it never
    raises TTransportException. *)
Fixpoint good_historyd (SL CL : Z) (l : list (method * list (option value))) (h : H)
  : Prop :=
  match l with
  | [] => True
  | (m, args) :: r =>
      match handler (m_name m) (received env (m_args m) args) h with
      | (res, h') =>
          (m_oneway m = false -> handler_okd D env SL CL m res)
          /\ (forall t, res <> HTransport t)
          /\ good_historyd SL CL r h'
      end
  end.
End Reference.

Notation good_history := (good_historyd (fun _ => true)).

(** The methods of a service are usable. *)
Definition service_ok (env : schema) (SL : Z) (ms : list method) : Prop :=
  NoDup (map m_name ms)
  /\ forall m, In m ms -> name_ok SL (m_name m)
       /\ (m_oneway m = false -> method_ok env m).

Lemma lookup_unique ms m : NoDup (map m_name ms) -> In m ms ->
  lookup (m_name m) ms = Some m.
Proof.
  intros Hn Hi. unfold lookup.
  destruct (find (fun m0 => name_eqb (m_name m) (m_name m0)) (rev ms)) as [m'|] eqn:E.
  - apply find_some in E as [Hi' E]. apply in_rev in Hi'.
    assert (E' : m_name m = m_name m').
    { unfold name_eqb in E. destruct (list_eq_dec Z.eq_dec (m_name m) (m_name m')); congruence. }
    f_equal. clear E. revert Hn Hi Hi' E'. induction ms as [|a r IH]; [contradiction|].
    cbn [map]. intros Hn Hi Hi' E. inversion Hn as [|? ? Hni Hnr]; subst.
    destruct Hi as [<-|Hi], Hi' as [<-|Hi']; auto.
    + exfalso. apply Hni. rewrite E. apply in_map. assumption.
    + exfalso. apply Hni. rewrite <- E. apply in_map. assumption.
  - exfalso. assert (F := find_none _ _ E m).
    assert (Hi' : In m (rev ms)) by (apply in_rev; rewrite rev_involutive; assumption).
    specialize (F Hi'). cbn beta in F. unfold name_eqb in F.
    destruct (list_eq_dec Z.eq_dec (m_name m) (m_name m)); congruence.
Qed.

Section Run.
Context {X : Type} {P : proto X} {SL CL : Z} (L : mlaws P SL CL).
Variables (env : schema).
Hypothesis Henv : schema_ok env.
Hypothesis Hclosed : schema_closed env = true.
Context {H : Type}.
Variable handler : list Z -> list (option value) -> H -> hres * H.

Notation msg := (message L).

(** The header of a message is read, then the body dispatched on. *)
Lemma process_header ms F name type seqid e n v tail x io so sent h : ml_idle L x ->
  name_ok SL name -> mtype_ok type -> seq_ok seqid ->
  exists x' i', process P env handler F ms
      (mkss (mkst x (msg name type seqid e n v ++ tail) io 0) so sent h)
    = dispatch P env handler F ms (name, type, seqid)
        (mkss (mkst x' i' io 0) so sent h)
    /\ ml_rB L x' i' ((ml_body L e n v ++ ml_end L) ++ tail).
Proof.
  intros Hx Hn Ht Hq.
  destruct (mr_begin L name type seqid ((ml_body L e n v ++ ml_end L) ++ tail) x io 0
     Hx Hn Ht Hq ltac:(rewrite <- app_assoc; apply (mt_body L)))
    as (x1 & i1 & E1 & H1).
  exists x1, i1. split; [|exact H1].
  unfold process, bind, on_in. cbn [s_in s_out s_sent s_h].
  unfold message. rewrite <- app_assoc. rewrite E1. reflexivity.
Qed.

Lemma msg_length name type seqid e n v :
  (length (ml_body L e n v ++ ml_end L) <= length (msg name type seqid e n v))%nat.
Proof. unfold message. rewrite !app_length. lia. Qed.

(** One request for a known two-way method. *)
Lemma process_request ms m type args seqid tail io oi oo xi xo sent h h' r F :
  14 <= SL -> ml_idle L xi -> ml_idle L xo ->
  lookup (m_name m) ms = Some m -> name_ok SL (m_name m) -> mtype_ok type ->
  seq_ok seqid -> args_ok L env (m_args m) args ->
  handler (m_name m) (received env (m_args m) args) h = (r, h') ->
  m_oneway m = false -> method_ok env m ->
  handler_okd (ml_dok L) env SL CL m r -> (forall t, r <> HTransport t) ->
  (length (msg (m_name m) type seqid env (m_args m) (VStruct (m_args m) args)) <= F)%nat ->
  exists e n v, reply_for env m r = Some (reply_type m r, e, n, v) /\
  exists s', process P env handler F ms
      (mkss (mkst xi (msg (m_name m) type seqid env (m_args m) (VStruct (m_args m) args)
                      ++ tail) io 0)
            (mkst xo oi oo 0) sent h)
    = (Ok tt, s')
    /\ left_at L tail io oi
         (sent ++ [oo ++ msg (m_name m) (reply_type m r) seqid e n v]) h' s'.
Proof.
  intros HSL Hxi Hxo Hl Hn Ht Hq Ha Hr Ho Hm Hh Htr HF.
  destruct (process_header ms F (m_name m) type seqid env (m_args m)
    (VStruct (m_args m) args) tail xi io (mkst xo oi oo 0) sent h Hxi Hn Ht Hq)
    as (x1 & i1 & E1 & H1).
  pose proof (msg_length (m_name m) type seqid env (m_args m) (VStruct (m_args m) args)).
  destruct (process_two_way L env Henv Hclosed handler m args seqid Hn Hq Ha tail io oi
    x1 xo i1 sent h h' r F H1 Hxo Hr ltac:(unfold request_body; lia) oo HSL Ho Hm Hh Htr)
    as (e & n & v & Er & s' & Es & Hs).
  exists e, n, v. split; [exact Er|]. exists s'. split; [|exact Hs].
  rewrite E1. unfold dispatch. rewrite Hl. exact Es.
Qed.

(** ... a one-way method ... *)
Lemma process_request_one_way ms m type args seqid tail io oi oo xi xo sent h h' r F :
  ml_idle L xi -> ml_idle L xo ->
  lookup (m_name m) ms = Some m -> name_ok SL (m_name m) -> mtype_ok type ->
  seq_ok seqid -> args_ok L env (m_args m) args ->
  handler (m_name m) (received env (m_args m) args) h = (r, h') ->
  m_oneway m = true -> (forall t, r <> HTransport t) ->
  (length (msg (m_name m) type seqid env (m_args m) (VStruct (m_args m) args)) <= F)%nat ->
  exists x', process P env handler F ms
      (mkss (mkst xi (msg (m_name m) type seqid env (m_args m) (VStruct (m_args m) args)
                      ++ tail) io 0)
            (mkst xo oi oo 0) sent h)
    = (Ok tt, mkss (mkst x' tail io 0) (mkst xo oi oo 0) sent h') /\ ml_idle L x'.
Proof.
  intros Hxi Hxo Hl Hn Ht Hq Ha Hr Ho Htr HF.
  destruct (process_header ms F (m_name m) type seqid env (m_args m)
    (VStruct (m_args m) args) tail xi io (mkst xo oi oo 0) sent h Hxi Hn Ht Hq)
    as (x1 & i1 & E1 & H1).
  pose proof (msg_length (m_name m) type seqid env (m_args m) (VStruct (m_args m) args)).
  destruct (process_one_way L env Henv Hclosed handler m args seqid Ha tail io oi
    x1 xo i1 sent h h' r F H1 Hr ltac:(unfold request_body; lia) oo Ho Htr)
    as (x' & Es & Hs).
  exists x'. split; [|exact Hs]. rewrite E1. unfold dispatch. rewrite Hl. exact Es.
Qed.

(** ... and an unknown one. *)
Lemma process_request_unknown ms name type seqid e n args tail io oi oo xi xo sent h F :
  ml_idle L xi -> ml_idle L xo ->
  lookup name ms = None -> name_ok SL name -> mtype_ok type -> seq_ok seqid ->
  name_ok SL (lit "Unknown function " ++ name) ->
  schema_ok e -> wfd (ml_dok L) e SL CL (TStruct n) (VStruct n args) = true ->
  (vdepth (VStruct n args) <= 64)%nat -> all_bin (ml_skbin L) (VStruct n args) = true ->
  (length (msg name type seqid e n (VStruct n args)) <= F)%nat ->
  exists s', process P env handler F ms
      (mkss (mkst xi (msg name type seqid e n (VStruct n args) ++ tail) io 0)
            (mkst xo oi oo 0) sent h) = (Ok tt, s')
    /\ left_at L tail io oi
         (sent ++ [oo ++ msg name EXCEPTION seqid app_env O
                    (app_exn TA_UNKNOWN_METHOD (Some (lit "Unknown function " ++ name)))])
         h s'.
Proof.
  intros Hxi Hxo Hl Hn Ht Hq Hu He Hwf Hd Hb HF.
  destruct (process_header ms F name type seqid e n (VStruct n args) tail xi io
    (mkst xo oi oo 0) sent h Hxi Hn Ht Hq) as (x1 & i1 & E1 & H1).
  pose proof (msg_length name type seqid e n (VStruct n args)) as Hlen.
  rewrite app_length in Hlen.
  destruct (dispatch_unknown L env handler ms name type seqid e n args tail io oi oo x1 xo
    i1 sent h F Hl Hn Hq Hu He Hwf Hd Hb H1 Hxo ltac:(lia)) as (s' & Es & Hs).
  exists s'. split; [rewrite E1; exact Es|exact Hs].
Qed.

(** * A whole call *)

(** Both ends between calls. *)
Definition quiet (h : H) (y : sys (X:=X) (H:=H)) : Prop :=
  exists xc xi xo, y = (mkcs (mkst xc [] [] 0) [],
                        mkss (mkst xi [] [] 0) (mkst xo [] [] 0) [] h)
    /\ ml_idle L xc /\ ml_idle L xi /\ ml_idle L xo.

Variable ms : list method.
Hypothesis Hms : service_ok env SL ms.
Hypothesis HSL : 14 <= SL.

Lemma call_ok m args h h' r y : In m ms ->
  args_ok L env (m_args m) args ->
  handler (m_name m) (received env (m_args m) args) h = (r, h') ->
  (m_oneway m = false -> handler_okd (ml_dok L) env SL CL m r) -> (forall t, r <> HTransport t) ->
  quiet h y ->
  exists y', call P env handler ms m args y
    = (Ok (if m_oneway m then CReturn None else expected env m r), y')
    /\ quiet h' y'.
Proof.
  intros Hi Ha Hr Hh Htr (xc & xi & xo & -> & Hxc & Hxi & Hxo).
  destruct Hms as [Hnd Hall]. destruct (Hall m Hi) as [Hn Hm].
  pose proof (lookup_unique _ _ Hnd Hi) as Hl.
  unfold call, at_client.
  destruct Ha as [Hwf Hd].
  destruct (send_ok L env Henv m args xc [] [] [] Hxc Hn Hwf Hd) as (xc1 & Es & Hxc1).
  unfold bind at 1. cbn [fst snd]. rewrite Es. cbn [app].
  set (ty := if m_oneway m then ONEWAY else CALL).
  assert (Ht : mtype_ok ty)
    by (unfold ty, mtype_ok, ONEWAY, CALL; destruct (m_oneway m); lia).
  set (rq := msg (m_name m) ty 0 env (m_args m) (VStruct (m_args m) args)).
  unfold bind at 1. cbv beta.
  unfold deliver_requests, feed. cbn [cl cl_sent s_in s_out s_sent s_h px inp out depth concat].
  rewrite app_nil_r. cbn [app].
  unfold serve_one. cbn [s_in inp].
  destruct (m_oneway m) eqn:Ho.
  - destruct (process_request_one_way ms m ty args 0 [] [] [] [] xi xo [] h h' r (length rq)
      Hxi Hxo Hl Hn Ht eq_refl (conj Hwf Hd) Hr Ho Htr (Nat.le_refl _)) as (x' & Ep & Hx').
    fold rq in Ep. rewrite app_nil_r in Ep. rewrite Ep. cbn [snd].
    unfold deliver_replies, feed.
    cbn [cl cl_sent s_in s_out s_sent s_h px inp out depth concat app].
    unfold ret. eexists. split; [reflexivity|].
    exists xc1, x', xo. repeat split; assumption.
  - destruct (process_request ms m ty args 0 [] [] [] [] xi xo [] h h' r (length rq)
      HSL Hxi Hxo Hl Hn Ht eq_refl (conj Hwf Hd) Hr Ho (Hm eq_refl) (Hh eq_refl) Htr
      (Nat.le_refl _)) as (e & n & v & Er & s' & Ep & (xi' & xo' & -> & Hxi' & Hxo')).
    fold rq in Ep. rewrite app_nil_r in Ep. rewrite Ep. cbn [snd app].
    destruct (reply_for_ok (ml_dok L) env SL CL m (Hm eq_refl) HSL Henv Hclosed r (Hh eq_refl) Htr)
      as (e' & n' & v' & Er' & He & Hc & Hwf' & Hd' & Hmt & Hk).
    assert (e' = e) by congruence. assert (n' = n) by congruence.
    assert (v' = v) by congruence. subst e' n' v'. clear Er'.
    unfold deliver_replies, feed.
    cbn [cl cl_sent s_in s_out s_sent s_h px inp out depth concat app fst snd].
    rewrite app_nil_r.
    set (rp := msg (m_name m) (reply_type m r) 0 e n v).
    destruct (recv_reply L env m (m_name m) 0 e n v (reply_type m r) [] xc1 [] []
      (length rp) Hxc1 Hn Hmt eq_refl He Hc Hwf' Hd') as (xc2 & Erc & Hxc2).
    { pose proof (msg_length (m_name m) (reply_type m r) 0 e n v) as Hlen.
      rewrite app_length in Hlen. unfold rp. lia. }
    { destruct (reply_type m r =? EXCEPTION); tauto. }
    fold rp in Erc. rewrite app_nil_r in Erc. rewrite Erc.
    eexists. split.
    + f_equal. f_equal. destruct (reply_type m r =? EXCEPTION);
        destruct Hk as (_ & _ & ->); reflexivity.
    + exists xc2, xi', xo'. repeat split; assumption.
Qed.

Theorem calls_ok l : forall h y,
  (forall m args, In (m, args) l ->
     In m ms /\ args_ok L env (m_args m) args) ->
  good_historyd (ml_dok L) env handler SL CL l h -> quiet h y ->
  exists y', calls P env handler ms l y = (fst (reference env handler l h), y')
    /\ quiet (snd (reference env handler l h)) y'.
Proof.
  induction l as [|[m args] l IH]; intros h y Hall Hg Hy.
  - exists y. split; [reflexivity|exact Hy].
  - cbn [calls reference good_historyd] in *.
    destruct (handler (m_name m) (received env (m_args m) args) h) as [r h'] eqn:Hr.
    destruct Hg as (Hh & Htr & Hg).
    destruct (Hall m args (or_introl eq_refl)) as [Hi Ha].
    destruct (call_ok m args h h' r y Hi Ha Hr Hh Htr Hy) as (y1 & E1 & Hy1).
    rewrite E1.
    destruct (IH h' y1 (fun m a Hin => Hall m a (or_intror Hin)) Hg Hy1) as (y2 & E2 & Hy2).
    rewrite E2. destruct (reference env handler l h') as [os h'']. cbn [fst snd] in *.
    exists y2. split; [reflexivity|exact Hy2].
Qed.

(** * A reply that comes too late *)

(** A reply the client should decode as [c]. *)
Definition reply_bytes (m : method) (c : cresult) (rp : list byte) : Prop :=
  forall xc tail sent F, ml_idle L xc -> (length rp <= F)%nat ->
  exists x', recv P env F m (mkcs (mkst xc (rp ++ tail) [] 0) sent)
             = (Ok c, mkcs (mkst x' tail [] 0) sent) /\ ml_idle L x'.

Lemma serve_reply m args h h' r xc ic xi xo : In m ms -> m_oneway m = false ->
  args_ok L env (m_args m) args ->
  handler (m_name m) (received env (m_args m) args) h = (r, h') ->
  handler_okd (ml_dok L) env SL CL m r -> (forall t, r <> HTransport t) ->
  ml_idle L xi -> ml_idle L xo ->
  exists rp xi' xo',
    deliver_replies (serve_one P env handler ms (deliver_requests
      (mkcs (mkst xc ic [] 0)
         [msg (m_name m) CALL 0 env (m_args m) (VStruct (m_args m) args)],
       mkss (mkst xi [] [] 0) (mkst xo [] [] 0) [] h)))
    = (mkcs (mkst xc (ic ++ rp) [] 0) [],
       mkss (mkst xi' [] [] 0) (mkst xo' [] [] 0) [] h')
    /\ reply_bytes m (expected env m r) rp /\ ml_idle L xi' /\ ml_idle L xo'.
Proof.
  intros Hi Ho Ha Hr Hh Htr Hxi Hxo.
  destruct Hms as [Hnd Hall]. destruct (Hall m Hi) as [Hn Hm].
  pose proof (lookup_unique _ _ Hnd Hi) as Hl.
  set (rq := msg (m_name m) CALL 0 env (m_args m) (VStruct (m_args m) args)).
  destruct (process_request ms m CALL args 0 [] [] [] [] xi xo [] h h' r (length rq)
      HSL Hxi Hxo Hl Hn ltac:(unfold mtype_ok, CALL; lia) eq_refl Ha Hr Ho (Hm Ho) Hh Htr
      (Nat.le_refl _)) as (e & n & v & Er & s' & Ep & (xi' & xo' & -> & Hxi' & Hxo')).
  destruct (reply_for_ok (ml_dok L) env SL CL m (Hm Ho) HSL Henv Hclosed r Hh Htr)
    as (e' & n' & v' & Er' & He & Hc & Hwf' & Hd' & Hmt & Hk).
  assert (e' = e) by congruence. assert (n' = n) by congruence.
  assert (v' = v) by congruence. subst e' n' v'. clear Er'.
  exists (msg (m_name m) (reply_type m r) 0 e n v), xi', xo'.
  split; [|split; [|split; assumption]].
  - unfold deliver_requests, serve_one, feed.
    cbn [cl cl_sent s_in s_out s_sent s_h px inp out depth concat].
    rewrite app_nil_r. cbn [app]. fold rq in Ep. rewrite app_nil_r in Ep. rewrite Ep.
    cbn [snd app]. unfold deliver_replies, feed.
    cbn [cl cl_sent s_in s_out s_sent s_h px inp out depth concat].
    rewrite app_nil_r. reflexivity.
  - intros xc2 tail sent F Hxc2 HF.
    destruct (recv_reply L env m (m_name m) 0 e n v (reply_type m r) tail xc2 [] sent
      F Hxc2 Hn Hmt eq_refl He Hc Hwf' Hd') as (x2 & Erc & Hx2).
    { pose proof (msg_length (m_name m) (reply_type m r) 0 e n v) as Hlen.
      rewrite app_length in Hlen. lia. }
    { destruct (reply_type m r =? EXCEPTION); tauto. }
    exists x2. split; [|exact Hx2]. rewrite Erc. f_equal. f_equal.
    destruct (reply_type m r =? EXCEPTION); destruct Hk as (_ & _ & ->); reflexivity.
Qed.

Variable e0 : exn.
Hypothesis Hempty : forall x o d, ml_idle L x ->
  exists x', readMessageBegin P (mkst x [] o d) = (Raise e0, mkst x' [] o d)
             /\ ml_idle L x'.

Theorem stale m a1 a2 h h1 h2 r1 r2 y : In m ms -> m_oneway m = false ->
  args_ok L env (m_args m) a1 ->
  args_ok L env (m_args m) a2 ->
  handler (m_name m) (received env (m_args m) a1) h = (r1, h1) ->
  handler (m_name m) (received env (m_args m) a2) h1 = (r2, h2) ->
  handler_okd (ml_dok L) env SL CL m r1 -> (forall t, r1 <> HTransport t) ->
  handler_okd (ml_dok L) env SL CL m r2 -> (forall t, r2 <> HTransport t) ->
  quiet h y ->
  exists y1 y2, call_late P env handler ms m a1 y = (Raise e0, y1)
    /\ call P env handler ms m a2 y1 = (Ok (expected env m r1), y2)
    /\ exists x rp, cl (fst y2) = mkst x rp [] 0 /\ ml_idle L x
                    /\ reply_bytes m (expected env m r2) rp.
Proof.
  intros Hi Ho [Hwf1 Hd1] [Hwf2 Hd2] Hr1 Hr2 Hh1 Ht1 Hh2 Ht2
    (xc & xi & xo & -> & Hxc & Hxi & Hxo).
  destruct Hms as [Hnd Hall]. destruct (Hall m Hi) as [Hn Hm].
  destruct (send_ok L env Henv m a1 xc [] [] [] Hxc Hn Hwf1 Hd1) as (xc1 & Es1 & Hxc1).
  rewrite Ho in Es1. cbn [app] in Es1.
  destruct (Hempty xc1 [] 0 Hxc1) as (xc0 & Ee & Hxc0). clear Hxc1.
  destruct (serve_reply m a1 h h1 r1 xc0 [] xi xo Hi Ho (conj Hwf1 Hd1) Hr1 Hh1 Ht1 Hxi Hxo)
    as (rp1 & xi1 & xo1 & E1 & Hrp1 & Hxi1 & Hxo1). cbn [app] in E1.
  destruct (send_ok L env Henv m a2 xc0 rp1 [] [] Hxc0 Hn Hwf2 Hd2) as (xc2 & Es2 & Hxc2).
  rewrite Ho in Es2. cbn [app] in Es2.
  destruct (serve_reply m a2 h1 h2 r2 xc2 rp1 xi1 xo1 Hi Ho (conj Hwf2 Hd2) Hr2 Hh2 Ht2
    Hxi1 Hxo1) as (rp2 & xi2 & xo2 & E2 & Hrp2 & Hxi2 & Hxo2).
  destruct (Hrp1 xc2 rp2 [] (length (rp1 ++ rp2)) Hxc2) as (xc3 & E3 & Hxc3).
  { rewrite app_length. lia. }
  eexists. eexists. split; [|split].
  - unfold call_late, at_client. unfold bind at 1. cbn [fst snd]. rewrite Es1.
    cbn [fst snd cl inp length].
    unfold recv, bind, on_cl. cbn [cl cl_sent]. rewrite Ee.
    cbn [cl cl_sent fst snd]. rewrite E1. reflexivity.
  - unfold call, at_client. unfold bind at 1. cbn [fst snd]. rewrite Es2.
    unfold bind at 1. cbv beta. rewrite E2, Ho. cbn [fst snd cl inp]. rewrite E3.
    reflexivity.
  - exists xc3, rp2. split; [reflexivity|]. split; assumption.
Qed.
End Run.

(** * Multiplexing *)

Lemma split_colon svc name : ~ In COLON svc ->
  split_name (svc ++ [COLON] ++ name) = Some (svc, name).
Proof.
  induction svc as [|c r IH]; intros Hn; cbn [app split_name].
  - reflexivity.
  - destruct (c =? COLON) eqn:E; [exfalso; apply Hn; left; lia|].
    change (COLON :: name) with ([COLON] ++ name).
    rewrite IH; [reflexivity|]. intros Hi. apply Hn. right. exact Hi.
Qed.

Lemma split_none name : ~ In COLON name -> split_name name = None.
Proof.
  induction name as [|c r IH]; intros Hn; cbn [split_name]; [reflexivity|].
  destruct (c =? COLON) eqn:E; [exfalso; apply Hn; left; lia|].
  rewrite IH; [reflexivity|]. intros Hi. apply Hn. right. exact Hi.
Qed.
Section MuxRun.
Context {X : Type} {P : proto X} {SL CL : Z} (L : mlaws P SL CL).
Variables (env : schema).
Context {H : Type}.
Variable handlers : option (list Z) -> list Z -> list (option value) -> H -> hres * H.
Variable undeco : X -> X -> X.

Notation msg := (message L).

(** What the multiplexed processor does with a request is what the processor
    it picks does with the request carrying the short name, up to the copied
    attributes of the input protocol. *)
Lemma mux_routed F default svcs ms svc name type seqid tail x io so sent h :
  ml_idle L x -> ~ In COLON svc -> name_ok SL (svc ++ [COLON] ++ name) ->
  type = CALL \/ type = ONEWAY -> seq_ok seqid ->
  find_service svc svcs = Some ms -> ml_T L tail ->
  exists x' i',
    mux_process P env handlers undeco F default svcs
      (mkss (mkst x (ml_hdr L (svc ++ [COLON] ++ name) type seqid ++ tail) io 0) so sent h)
    = decorated undeco (dispatch P env (handlers (Some svc)) F ms (name, type, seqid))
        (mkss (mkst x' i' io 0) so sent h)
    /\ ml_rB L x' i' tail.
Proof.
  intros Hx Hs Hn Ht Hq Hf HT.
  assert (Hmt : mtype_ok type) by (unfold mtype_ok, CALL, ONEWAY in *; lia).
  destruct (mr_begin L (svc ++ [COLON] ++ name) type seqid tail x io 0 Hx Hn Hmt Hq HT)
    as (x1 & i1 & E1 & H1).
  exists x1, i1. split; [|exact H1].
  unfold mux_process, bind, on_in. cbn [s_in s_out s_sent s_h]. rewrite E1.
  destruct (negb (type =? CALL) && negb (type =? ONEWAY)) eqn:Et; [exfalso; lia|].
  rewrite split_colon by assumption. rewrite Hf. reflexivity.
Qed.

Lemma mux_default F default svcs ms name type seqid tail x io so sent h :
  ml_idle L x -> ~ In COLON name -> name_ok SL name ->
  type = CALL \/ type = ONEWAY -> seq_ok seqid -> default = Some ms ->
  ml_T L tail ->
  exists x' i',
    mux_process P env handlers undeco F default svcs
      (mkss (mkst x (ml_hdr L name type seqid ++ tail) io 0) so sent h)
    = decorated undeco (dispatch P env (handlers None) F ms (name, type, seqid))
        (mkss (mkst x' i' io 0) so sent h)
    /\ ml_rB L x' i' tail.
Proof.
  intros Hx Hs Hn Ht Hq -> HT.
  assert (Hmt : mtype_ok type) by (unfold mtype_ok, CALL, ONEWAY in *; lia).
  destruct (mr_begin L name type seqid tail x io 0 Hx Hn Hmt Hq HT) as (x1 & i1 & E1 & H1).
  exists x1, i1. split; [|exact H1].
  unfold mux_process, bind, on_in. cbn [s_in s_out s_sent s_h]. rewrite E1.
  destruct (negb (type =? CALL) && negb (type =? ONEWAY)) eqn:Et; [exfalso; lia|].
  rewrite split_none by assumption. reflexivity.
Qed.

Lemma mux_refused F default svcs name type seqid tail x io so sent h :
  ml_idle L x -> name_ok SL name -> mtype_ok type -> seq_ok seqid ->
  (type <> CALL /\ type <> ONEWAY)
  \/ (~ In COLON name /\ default = None)
  \/ (exists svc call, name = svc ++ [COLON] ++ call /\ ~ In COLON svc
        /\ find_service svc svcs = None) ->
  ml_T L tail ->
  exists s', mux_process P env handlers undeco F default svcs
      (mkss (mkst x (ml_hdr L name type seqid ++ tail) io 0) so sent h)
    = (Raise (EProtocol TP_NOT_IMPLEMENTED), s')
    /\ s_out s' = so /\ s_sent s' = sent /\ s_h s' = h.
Proof.
  intros Hx Hn Hmt Hq Hc HT.
  destruct (mr_begin L name type seqid tail x io 0 Hx Hn Hmt Hq HT) as (x1 & i1 & E1 & H1).
  exists (mkss (mkst x1 i1 io 0) so sent h). split; [|repeat split].
  unfold mux_process, bind, on_in. cbn [s_in s_out s_sent s_h]. rewrite E1.
  destruct (negb (type =? CALL) && negb (type =? ONEWAY)) eqn:Et; [reflexivity|].
  destruct Hc as [Hc|[[Hc ->]|(svc & call & -> & Hs & Hf)]].
  - exfalso. lia.
  - rewrite split_none by assumption. reflexivity.
  - rewrite split_colon by assumption. rewrite Hf. reflexivity.
Qed.
End MuxRun.

Section MuxClient.
Context {X : Type} {P : proto X} {SL CL : Z} (L : mlaws P SL CL).


(** The client side of it. *)
Lemma mux_write svc name type seqid x i o d : ml_idle L x ->
  name_ok SL (svc ++ [COLON] ++ name) -> type = CALL \/ type = ONEWAY -> seq_ok seqid ->
  exists x', writeMessageBegin (mux_protocol svc P) name type seqid (mkst x i o d)
    = (Ok tt, mkst x' i (o ++ ml_hdr L (svc ++ [COLON] ++ name) type seqid) d)
    /\ ml_wB L x'.
Proof.
  intros Hx Hn Ht Hq.
  assert (Hmt : mtype_ok type) by (unfold mtype_ok, CALL, ONEWAY in *; lia).
  cbn [mux_protocol writeMessageBegin].
  destruct ((type =? CALL) || (type =? ONEWAY)) eqn:E; [|exfalso; lia].
  exact (mw_begin L _ type seqid x i o d Hx Hn Hmt Hq).
Qed.

Lemma mux_same_writers svc : same_writers (mux_protocol svc P) P.
Proof. repeat split; intros; destruct t, v; reflexivity. Qed.
End MuxClient.

(** * A call that fails to serialise *)

Section Failed.
Context {X : Type} {P : proto X} {SL CL : Z} (L : mlaws P SL CL).
Variables (env : schema).
Hypothesis HW : rwrites (@writes X) P.

Notation msg := (message L).

(** Nothing is flushed, and what was written of the request, header included,
    stays in the write buffer. *)
Lemma send_failed m args x i o sent e s' : ml_idle L x -> name_ok SL (m_name m) ->
  (forall x1, ml_wB L x1 -> forall i o, fst (write_struct P env (m_args m)
      (VStruct (m_args m) args) (mkst x1 i o 0)) <> Ok tt) ->
  send P env m args (mkcs (mkst x i o 0) sent) = (Raise e, s') ->
  cl_sent s' = sent /\ inp (cl s') = i /\ depth (cl s') = 0 /\
  exists part, out (cl s')
    = o ++ ml_hdr L (m_name m) (if m_oneway m then ONEWAY else CALL) 0 ++ part.
Proof.
  intros Hx Hn Hbad Hs. set (ty := if m_oneway m then ONEWAY else CALL) in *.
  assert (Ht : mtype_ok ty)
    by (unfold ty, mtype_ok, ONEWAY, CALL; destruct (m_oneway m); lia).
  destruct (mw_begin L (m_name m) ty 0 x i o 0 Hx Hn Ht eq_refl) as (x1 & E1 & H1).
  unfold send in Hs. fold ty in Hs. unfold bind, on_cl in Hs. cbn [cl cl_sent] in Hs.
  rewrite E1 in Hs. cbn [cl cl_sent] in Hs.
  specialize (Hbad x1 H1 i (o ++ ml_hdr L (m_name m) ty 0)).
  pose proof (write_value_rel _ (writes_closed X) P HW env
    (VStruct (m_args m) args) (TStruct (m_args m))
    (mkst x1 i (o ++ ml_hdr L (m_name m) ty 0) 0)) as Hw.
  unfold write_struct in *.
  destruct (write_value P env (TStruct (m_args m)) (VStruct (m_args m) args)
    (mkst x1 i (o ++ ml_hdr L (m_name m) ty 0) 0)) as [[[]|e'|] s1].
  - exfalso. apply Hbad. reflexivity.
  - cbn [fst snd] in *. destruct Hw as (A & B & post & D).
    cbn [inp out depth] in A, B, D.
    assert (s' = mkcs s1 sent) by congruence. subst s'. cbn [cl cl_sent].
    repeat split; auto. exists post. rewrite D, app_assoc. reflexivity.
  - discriminate.
Qed.
End Failed.

(** A compact protocol object that is in the middle of writing never becomes
    ready again by writing values, whatever happens. *)
Definition c_busy (x : cst) : Prop :=
  state x <> CLEAR /\ Forall (fun p => fst p <> CLEAR) (structs x)
  /\ Forall (fun s => s <> CLEAR) (containers x).

Definition busy (A : Type) (m m' : M cst A) : Prop :=
  forall s, c_busy (px s) -> c_busy (px (snd (m s))).

Lemma busy_closed : rclosed busy.
Proof.
  constructor; unfold busy.
  - intros A a s Hs. exact Hs.
  - intros A e s Hs. exact Hs.
  - intros A _ s Hs. exact Hs.
  - intros A B m m' k k' Hm Hk s Hs. unfold bind. specialize (Hm s Hs).
    destruct (m s) as [[a|e|] s1]; cbn [snd] in *; auto.
  - intros A m m' Hm s Hs. unfold with_depth, increment_recursion_depth, bind, try_finally.
    destruct (_ >? _); [exact Hs|].
    match goal with |- context [m ?s1] => specialize (Hm s1 Hs); destruct (m s1) as [r s2] end.
    exact Hm.
Qed.

Lemma busy_same A (m m' : M cst A) : (forall s, px (snd (m s)) = px s) -> busy A m m'.
Proof. intros Hm s Hs. rewrite Hm. exact Hs. Qed.

Lemma busy_upd f m' : (forall x, c_busy x -> c_busy (f x)) -> busy unit (upd f) m'.
Proof. intros Hf s Hs. cbn. apply Hf, Hs. Qed.

Lemma busy_get A (k : cst -> M cst A) m' :
  (forall x, busy A (k x) (k x)) -> busy A (x <- get_px ;; k x) m'.
Proof. intros Hk s Hs. unfold bind, get_px. apply Hk, Hs. Qed.

Lemma busy_pop_struct m' : busy unit pop_struct m'.
Proof.
  intros s Hs. unfold pop_struct, bind, get_px, set_px, raise.
  destruct s as [[st lf bf bv ss cs] i o d]. cbn in *.
  destruct ss as [|[a b] r]; [exact Hs|]. cbn.
  destruct Hs as (H1 & H2 & H3). cbn in *. inversion H2; subst. repeat split; auto.
Qed.

Lemma busy_pop_container m' : busy unit pop_container m'.
Proof.
  intros s Hs. unfold pop_container, bind, get_px, set_px, raise.
  destruct s as [[st lf bf bv ss cs] i o d]. cbn in *.
  destruct cs as [|a r]; [exact Hs|]. cbn.
  destruct Hs as (H1 & H2 & H3). cbn in *. inversion H3; subst. repeat split; auto.
Qed.

Lemma busy_set_state c x : c <> CLEAR -> c_busy x -> c_busy (set_state c x).
Proof. intros Hc (H1 & H2 & H3). repeat split; assumption. Qed.
Lemma busy_push_struct x : c_busy x ->
  c_busy (set_structs ((state x, last_fid x) :: structs x) x).
Proof. intros (H1 & H2 & H3). repeat split; try assumption. constructor; assumption. Qed.
Lemma busy_push_container x : c_busy x ->
  c_busy (set_containers (state x :: containers x) x).
Proof. intros (H1 & H2 & H3). repeat split; try assumption. constructor; assumption. Qed.

Ltac busy_step :=
  repeat first
    [ apply (rc_ret _ busy_closed) | apply (rc_raise _ busy_closed)
    | apply (rc_div _ busy_closed)
    | apply busy_pop_struct | apply busy_pop_container
    | apply busy_upd; let x := fresh "x" in let Hx := fresh "Hx" in intros x Hx;
      first [ apply busy_set_state; [discriminate|exact Hx]
            | apply busy_push_struct; exact Hx
            | apply busy_push_container; exact Hx
            | exact Hx ]
    | apply busy_get; let x := fresh "x" in intros x
    | progress unfold assert_
    | apply (rc_bind _ busy_closed); [|intros]
    | apply busy_same; intros s0; reflexivity
    | match goal with
      | |- _ _ (if ?b then _ else _) _ => destruct b
      | |- _ _ (match ?b with _ => _ end) _ => destruct b
      end ].

Lemma compact_busy cf : rwrites busy (compact cf).
Proof.
  constructor; intros;
  cbn [compact writeStructBegin writeStructEnd writeFieldBegin writeFieldEnd
    writeFieldStop writeMapBegin writeMapEnd writeListBegin writeListEnd
    writeSetBegin writeSetEnd writeBool writeByte writeI16 writeI32 writeI64
    writeDouble writeString writeBinary writeUuid];
  unfold c_writeStructBegin, c_writeStructEnd, c_writeFieldBegin,
    c_writeFieldEnd, c_writeFieldStop, c_writeMapBegin, c_writeCollectionBegin,
    c_writeCollectionEnd, c_writeBool, c_writeByte, c_writeI16, c_writeI32,
    c_writeI64, c_writeDouble, c_writeString, c_writeBinary, c_writeUuid,
    c_writeFieldHeader, c_writeI16_, c_writeBinary_,
    c_writeByte_, c_writeUByte, makeZigZag, checkIntegerLimits, lookup_ctype,
    writer, assert_state, assert_, writeVarint, pack_signed, pack_unsigned, encode_utf8;
  busy_step.
Qed.

Lemma wvalue_busy x : c_wvalue x -> c_busy x.
Proof.
  intros (H1 & H2 & H3). unfold c_busy. rewrite H1, H2, H3.
  split; [discriminate|]. split; constructor.
Qed.

(** After a failed send the compact protocol object is not ready ... *)
Lemma compact_send_failed cf SL CL (HL : c_limits cf SL CL) env m args x i o sent e s' :
  c_ready x -> name_ok SL (m_name m) ->
  fst (send (compact cf) env m args (mkcs (mkst x i o 0) sent)) = Raise e ->
  snd (send (compact cf) env m args (mkcs (mkst x i o 0) sent)) = s' ->
  c_busy (px (cl s')).
Proof.
  intros Hx Hn He Hs. set (ty := if m_oneway m then ONEWAY else CALL) in *.
  assert (Ht : mtype_ok ty)
    by (unfold ty, mtype_ok, ONEWAY, CALL; destruct (m_oneway m); lia).
  set (L := compact_mlaws cf SL CL HL).
  destruct (mw_begin L (m_name m) ty 0 x i o 0 Hx Hn Ht eq_refl) as (x1 & E1 & H1).
  cbn [ml_hdr L compact_mlaws] in E1.
  unfold send in He, Hs. fold ty in He, Hs. unfold bind, on_cl in He, Hs.
  cbn [cl cl_sent] in He, Hs.
  rewrite E1 in He, Hs. cbn [cl cl_sent] in He, Hs.
  assert (Hw := write_value_rel _ busy_closed (compact cf) (compact_busy cf) env
    (VStruct (m_args m) args) (TStruct (m_args m))
    (mkst x1 i (o ++ ml_hdr L (m_name m) ty 0) 0) (wvalue_busy _ H1)).
  unfold write_struct in *. cbn [ml_hdr L compact_mlaws] in Hw.
  destruct (write_value (compact cf) env (TStruct (m_args m)) (VStruct (m_args m) args)
    _) as [[[]|e'|] s1]; cbn [fst snd cl cl_sent] in *.
  - change (writeMessageEnd (compact cf)) with c_writeMessageEnd in *.
    unfold c_writeMessageEnd, assert_state, upd, bind, get_px, set_px, assert_ in He, Hs.
    destruct (existsb (cstate_eqb (state (px s1))) [VALUE_WRITE]).
    + discriminate.
    + unfold raise in Hs. cbn in Hs. subst s'. exact Hw.
  - subst s'. exact Hw.
  - discriminate.
Qed.

(** ... and every later send on it fails without writing anything. *)
Lemma compact_send_busy cf env m args s : c_busy (px (cl s)) ->
  send (compact cf) env m args s = (Raise EAssertion, s).
Proof.
  intros (H1 & _). unfold send, bind, on_cl.
  change (writeMessageBegin (compact cf)) with c_writeMessageBegin.
  unfold c_writeMessageBegin, assert_state, bind, get_px, assert_.
  destruct s as [[x i o d] sent]. cbn in *. destruct (state x); try reflexivity.
  congruence.
Qed.

(** The binary protocol object has no state of its own: a later call goes
    through, with the remains of the failed one in front. *)
Lemma binary_send_failed cf SL CL (HL : b_limits cf SL CL) env m args i o sent e s' :
  name_ok SL (m_name m) ->
  send (binary cf) env m args (mkcs (mkst tt i o 0) sent) = (Raise e, s') ->
  exists part, s' = mkcs (mkst tt i
    (o ++ sb_message (strictWrite cf) (m_name m) (if m_oneway m then ONEWAY else CALL) 0
       ++ part) 0) sent.
Proof.
  intros Hn Hs. set (ty := if m_oneway m then ONEWAY else CALL) in *.
  assert (Ht : mtype_ok ty)
    by (unfold ty, mtype_ok, ONEWAY, CALL; destruct (m_oneway m); lia).
  assert (E1 : b_writeMessageBegin cf (m_name m) ty 0 (mkst tt i o 0)
    = (Ok tt, mkst tt i (o ++ sb_message (strictWrite cf) (m_name m) ty 0) 0)).
  { rewrite (b_writeMessage_ok cf SL); [reflexivity|apply HL|exact Hn| |reflexivity].
    unfold mtype_ok in Ht. destruct (strictWrite cf); lia. }
  unfold send in Hs. fold ty in Hs. unfold bind, on_cl in Hs. cbn [cl cl_sent] in Hs.
  change (writeMessageBegin (binary cf)) with (b_writeMessageBegin cf) in Hs.
  rewrite E1 in Hs. cbn [cl cl_sent] in Hs.
  pose proof (write_value_rel _ (writes_closed unit) (binary cf) (binary_writes cf) env
    (VStruct (m_args m) args) (TStruct (m_args m))
    (mkst tt i (o ++ sb_message (strictWrite cf) (m_name m) ty 0) 0)) as Hw.
  unfold write_struct in *.
  destruct (write_value (binary cf) env (TStruct (m_args m)) (VStruct (m_args m) args)
    _) as [[[]|e'|] [[] i1 o1 d1]]; cbn [fst snd cl cl_sent] in *.
  - discriminate.
  - destruct Hw as (A & B & post & D). cbn [inp out depth] in A, B, D. subst.
    exists post. rewrite <- app_assoc in Hs. congruence.
  - discriminate.
Qed.

(** * Multiplexed requests and plain ones *)

Lemma on_in_depth {X H A} (m : M X A) (s : sstate X H) :
  reads A m m -> depth (s_in (snd (on_in m s))) = depth (s_in s).
Proof.
  intros Hm. unfold on_in. specialize (Hm (s_in s)).
  destruct (m (s_in s)) as [r i]. apply Hm.
Qed.

Definition keeps_depth {X H A} (m : SM (sstate X H) A) : Prop :=
  forall s, depth (s_in (snd (m s))) = depth (s_in s).

Lemma keeps_bind {X H A B} (m : SM (sstate X H) A) (k : A -> SM (sstate X H) B) :
  keeps_depth m -> (forall a, keeps_depth (k a)) -> keeps_depth (bind m k).
Proof.
  intros Hm Hk s. unfold bind. specialize (Hm s).
  destruct (m s) as [[a|e|] s1]; cbn [snd] in *; auto. rewrite Hk. exact Hm.
Qed.

Lemma keeps_out {X H A} (m : M X A) : keeps_depth (H:=H) (on_out m).
Proof. intros s. unfold on_out. destruct (m (s_out s)). reflexivity. Qed.

Lemma dispatch_depth {X H} (P : proto X) env (handler : list Z -> list (option value) -> H -> hres * H)
    F ms hdr : rreads (@reads X) P -> reads _ (readMessageEnd P) (readMessageEnd P) ->
  keeps_depth (dispatch P env handler F ms hdr).
Proof.
  intros HP He. destruct hdr as [[name ty] seqid]. unfold dispatch.
  assert (HR : forall e n v a b c, keeps_depth (H:=H) (reply P a b c e n v)).
  { intros. unfold reply. repeat (apply keeps_bind; [apply keeps_out|intros]).
    intros s. reflexivity. }
  destruct (lookup name ms) as [m|].
  - unfold process_function. apply keeps_bind.
    + intros s. apply on_in_depth. apply (read_struct_rel _ (reads_closed X) P HP); lia.
    + intros a. apply keeps_bind; [intros s; apply on_in_depth; exact He|].
      intros _. apply keeps_bind.
      * intros s. unfold call_handler. destruct (handler _ _ _). reflexivity.
      * intros r.
        assert (G : keeps_depth (H:=H) (if m_oneway m then ret tt
           else match reply_for env m r with
                | Some (mtype, e, n, v) => reply P (m_name m) mtype seqid e n v
                | None => ret tt
                end)).
        { destruct (m_oneway m); [intros s; reflexivity|].
          destruct (reply_for env m r) as [[[[mt e] n] v]|]; [apply HR|].
          intros s; reflexivity. }
        destruct r; try exact G. intros s. reflexivity.
  - apply keeps_bind.
    + intros s. apply on_in_depth. apply (skip_rel _ (reads_closed X) P HP); lia.
    + intros _. apply keeps_bind; [intros s; apply on_in_depth; exact He|].
      intros _. apply HR.
Qed.

Lemma binary_mux_plain cf SL CL (HL : b_limits cf SL CL) env H
    (handlers : option (list Z) -> list Z -> list (option value) -> H -> hres * H)
    F default svcs ms svc name type seqid tail io so sent h :
  ~ In COLON svc -> name_ok SL (svc ++ [COLON] ++ name) -> name_ok SL name ->
  type = CALL \/ type = ONEWAY -> seq_ok seqid -> find_service svc svcs = Some ms ->
  mux_process (binary cf) env handlers undeco_binary F default svcs
    (mkss (mkst tt (sb_message true (svc ++ [COLON] ++ name) type seqid ++ tail) io 0)
          so sent h)
  = process (binary cf) env (handlers (Some svc)) F ms
    (mkss (mkst tt (sb_message true name type seqid ++ tail) io 0) so sent h).
Proof.
  intros Hs Hn Hn' Ht Hq Hf.
  assert (Hty : 0 <= type <= 255) by (unfold CALL, ONEWAY in Ht; lia).
  unfold mux_process, process, bind, on_in. cbn [s_in s_out s_sent s_h].
  change (readMessageBegin (binary cf)) with (b_readMessageBegin cf).
  rewrite !(b_readMessage_strict cf SL CL) by assumption.
  cbn [s_in s_out s_sent s_h].
  destruct (negb (type =? CALL) && negb (type =? ONEWAY)) eqn:Et; [exfalso; lia|].
  rewrite split_colon by assumption. rewrite Hf.
  unfold decorated.
  pose proof (dispatch_depth (binary cf) env (handlers (Some svc)) F ms (name, type, seqid)
    (binary_reads cf) ltac:(intros s; repeat split; exists []; reflexivity)
    (mkss (mkst tt tail io 0) so sent h)) as Hd.
  destruct (dispatch _ _ _ _ _ _ _) as [r [[[] i o d] so' sent' h']].
  cbn [snd s_in depth s_out s_sent s_h px inp out undeco_binary] in *. subst d. reflexivity.
Qed.

(** The compact protocol object keeps its own copy of the scalar attributes. *)
Lemma compact_mux_plain cf SL CL (HL : c_limits cf SL CL) env H
    (handlers : option (list Z) -> list Z -> list (option value) -> H -> hres * H)
    F default svcs ms svc name type seqid tail x io so sent h : c_ready x ->
  ~ In COLON svc -> name_ok SL (svc ++ [COLON] ++ name) -> name_ok SL name ->
  type = CALL \/ type = ONEWAY -> seq_ok seqid -> find_service svc svcs = Some ms ->
  mux_process (compact cf) env handlers undeco_compact F default svcs
    (mkss (mkst x (sc_message (svc ++ [COLON] ++ name) type seqid ++ tail) io 0)
          so sent h)
  = match process (compact cf) env (handlers (Some svc)) F ms
            (mkss (mkst x (sc_message name type seqid ++ tail) io 0) so sent h) with
    | (r, s') => (r, mkss (mkst (undeco_compact x (px (s_in s'))) (inp (s_in s'))
                                (out (s_in s')) (depth (s_in s')))
                          (s_out s') (s_sent s') (s_h s'))
    end.
Proof.
  intros Hx Hs Hn Hn' Ht Hq Hf.
  assert (Hty : 0 <= type <= 7) by (unfold CALL, ONEWAY in Ht; lia).
  unfold mux_process, process, bind, on_in. cbn [s_in s_out s_sent s_h].
  change (readMessageBegin (compact cf)) with (c_readMessageBegin cf).
  rewrite !(c_readMessage_ok cf SL CL) by (assumption || apply Hx).
  cbn [s_in s_out s_sent s_h].
  destruct (negb (type =? CALL) && negb (type =? ONEWAY)) eqn:Et; [exfalso; lia|].
  rewrite split_colon by assumption. rewrite Hf.
  unfold decorated.
  pose proof (dispatch_depth (compact cf) env (handlers (Some svc)) F ms (name, type, seqid)
    (compact_reads cf)) as Hd.
  assert (He : reads unit (readMessageEnd (compact cf)) (readMessageEnd (compact cf))).
  { change (readMessageEnd (compact cf)) with c_readMessageEnd.
    intros [x1 i1 o1 d1]. unfold c_readMessageEnd, assert_state, bind, get_px, assert_.
    cbn [px]. destruct (existsb (cstate_eqb (state x1)) [CLEAR]); cbn [px ret raise];
      [destruct (structs x1)|]; cbn [snd inp out depth ret raise];
      split; try split; try reflexivity; exists []; reflexivity. }
  specialize (Hd He (mkss (mkst x tail io 0) so sent h)).
  destruct (dispatch _ _ _ _ _ _ _) as [r [[x' i o d] so' sent' h']].
  cbn [snd s_in depth s_out s_sent s_h px inp out] in *. subst d. reflexivity.
Qed.
