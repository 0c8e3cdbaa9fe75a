(** Facts about RpcFast.v. *)
From Coq Require Import String.
From Coq Require Import ZArith List Bool Lia.
From Coq Require Import Init.Byte.
From Coq Require Import ZifyBool ZifyNat ZifyN.
From Verif Require Import Base Bytes Utf8 Proto Spec Laws StructFacts Binary BinaryLaws
  SpecBinary Compact CompactLaws SpecCompact InstFacts Dynamic DynamicFacts DynamicRead
  SpecDynamic Ext ExtFacts ExtRead SpecExt ExtReadGen ExtReadBinary ExtReadCompact
  ExtReadFacts MsgLaws Rpc RpcFacts RpcSys PropsExt RpcFast.
Import ListNotations.
Open Scope Z_scope.
Open Scope list_scope.

(** * Codecs that write and read the protocol's encoding *)

Record codec_ok {X} {P : proto X} {SL CL} (L : mlaws P SL CL) (env : schema)
    (K : codec X) : Prop := {
  ck_write : forall n v x i o, ml_wB L x ->
    wfd (ml_dok L) env SL CL (TStruct n) v = true -> (sdepth v <= 64)%nat ->
    exists x', k_write K env n v (mkst x i o 0)
               = (Ok tt, mkst x' i (o ++ ml_body L env n v) 0) /\ ml_wA L x';
  ck_read : forall n v tail x i o F, ml_rB L x i (ml_body L env n v ++ tail) ->
    wfd (ml_dok L) env SL CL (TStruct n) v = true -> (sdepth v <= 64)%nat ->
    (length (ml_body L env n v) <= F)%nat ->
    exists x' i', k_read K env F n (mkst x i o 0)
                  = (Ok (with_defaults env (TStruct n) v), mkst x' i' o 0)
                  /\ ml_rA L x' i' tail }.

Lemma plain_ok {X} {P : proto X} {SL CL} (L : mlaws P SL CL) env :
  schema_ok env -> schema_closed env = true -> codec_ok L env (plain P).
Proof.
  intros He Hc. split.
  - intros. apply mw_body; assumption.
  - intros. apply read_same; assumption.
Qed.

Lemma fast_read_same {X Y} (I : cimpl Y) y0 {W} (D : dimpl W) z0 env n w b tail
    (x : X) o d F :
  fast_deserialize D z0 env n (b ++ tail) = Ok (w, tail) ->
  k_read (fast I y0 D z0) env F n (mkst x (b ++ tail) o d) = (Ok w, mkst x tail o d).
Proof.
  unfold fast_deserialize. cbn [fast k_read inp px out depth].
  destruct (cread_struct _ _ _ _ _ _) as [[u|e|] s]; try discriminate.
  intros H. injection H as -> <-. reflexivity.
Qed.

Lemma x_of_b cf SL CL : b_limits cf SL CL ->
  x_limits (string_length_limit cf) (container_length_limit cf) SL CL.
Proof. intros H; exact H. Qed.
Lemma x_of_c cf SL CL : c_limits cf SL CL ->
  x_limits (c_string_length_limit cf) (c_container_length_limit cf) SL CL.
Proof. intros H; exact H. Qed.

Lemma binary_codec_ok cf SL CL HL Hs env a : table_schema env -> schema_closed env = true ->
  codec_ok (binary_mlaws cf SL CL HL Hs) env (binary_codec cf a).
Proof.
  intros Ht Hc. pose proof (id16_table env Ht) as He.
  destruct a as [big|]; [|apply plain_ok; assumption]. split; cbn [binary_codec].
  - intros n v [] i o _ Hwf Hd. exists tt. split; [|exact I].
    cbn [fast k_write ml_body binary_mlaws px inp out depth].
    destruct (C33_binary big cf SL CL env n v Ht ltac:(apply HL) ltac:(apply HL) Hwf) as [_ ->].
    destruct (Nat.leb_spec (sdepth v) 64); [|lia]. reflexivity.
  - intros n v tail [] i o F Hr Hwf Hd HF. exists tt, tail. split; [|reflexivity].
    cbn in Hr. subst i. apply fast_read_same.
    rewrite <- (proj_with_defaults _ _ _ _ He _ Hwf).
    apply (fast_binary_read big _ _ SL CL env env (same env) n n v tail (x_of_b _ _ _ HL) He Ht
      (compat_env_same _ He Hc) (same_in _ _ (wfd_struct_in _ _ _ _ _ _ Hwf)) Hwf Hd).
    eapply drop_within_same; eassumption.
Qed.

Lemma compact_codec_ok cf SL CL HL env a : table_schema env -> schema_closed env = true ->
  codec_ok (compact_mlaws cf SL CL HL) env (compact_codec cf a).
Proof.
  intros Ht Hc. pose proof (id16_table env Ht) as He.
  destruct a as [big|]; [|apply plain_ok; assumption]. split; cbn [compact_codec].
  - intros n v x i o Hx Hwf Hd. exists x. split; [|exact Hx].
    cbn [fast k_write ml_body compact_mlaws px inp out depth].
    destruct (C33_compact big cf SL CL env n v Ht ltac:(apply HL) ltac:(apply HL) Hwf) as [_ ->].
    destruct (Nat.leb_spec (sdepth v) 64); [|lia]. reflexivity.
  - intros n v tail x i o F [-> Hx] Hwf Hd HF. exists x, tail.
    split; [|split; [reflexivity|exact Hx]]. apply fast_read_same.
    rewrite <- (proj_with_defaults _ _ _ _ He _ Hwf).
    apply (fast_compact_read big _ _ SL CL env env (same env) n n v tail (x_of_c _ _ _ HL) He Ht
      (compat_env_same _ He Hc) (same_in _ _ (wfd_struct_in _ _ _ _ _ _ Hwf)) Hwf Hd).
    eapply drop_within_same; eassumption.
Qed.

(** * Running *)

Section Run.
Context {X : Type} {P : proto X} {SL CL : Z} (L : mlaws P SL CL).
Variable env : schema.
Hypothesis Henv : schema_ok env.
Hypothesis Hclosed : schema_closed env = true.
Variables Kc Ki Ko : codec X.
Hypothesis Hkc : codec_ok L env Kc.
Hypothesis Hki : codec_ok L env Ki.
Hypothesis Hko : codec_ok L env Ko.

Notation msg := (message L).

Lemma asend_ok m args x i o sent : ml_idle L x -> name_ok SL (m_name m) ->
  wfd (ml_dok L) env SL CL (TStruct (m_args m)) (VStruct (m_args m) args) = true ->
  (sdepth (VStruct (m_args m) args) <= 64)%nat ->
  exists x', asend P env Kc m args (mkcs (mkst x i o 0) sent)
    = (Ok tt, mkcs (mkst x' i [] 0)
        (sent ++ [o ++ msg (m_name m) (if m_oneway m then ONEWAY else CALL) 0
                        env (m_args m) (VStruct (m_args m) args)]))
    /\ ml_idle L x'.
Proof.
  intros Hx Hn Hwf Hd. unfold asend.
  set (ty := if m_oneway m then ONEWAY else CALL).
  assert (Ht : mtype_ok ty)
    by (unfold ty, mtype_ok, ONEWAY, CALL; destruct (m_oneway m); lia).
  destruct (mw_begin L (m_name m) ty 0 x i o 0 Hx Hn Ht eq_refl) as (x1 & E1 & H1).
  destruct (ck_write _ _ _ Hkc (m_args m) (VStruct (m_args m) args) x1 i
     (o ++ ml_hdr L (m_name m) ty 0) H1 Hwf Hd) as (x2 & E2 & H2).
  destruct (mw_end L x2 i ((o ++ ml_hdr L (m_name m) ty 0) ++ ml_body L env (m_args m) (VStruct (m_args m) args)) 0 H2) as (x3 & E3 & H3).
  exists x3. split; [|exact H3].
  unfold bind, on_cl. cbn [cl cl_sent]. rewrite E1. cbn [cl cl_sent].
  rewrite E2. cbn [cl cl_sent]. rewrite E3. cbn [cl cl_sent].
  unfold cl_flush. cbn [cl cl_sent px inp out depth]. unfold message.
  rewrite !app_assoc. reflexivity.
Qed.

Lemma arecv_reply m name seqid e n v mt tail x o sent F : ml_idle L x ->
  name_ok SL name -> mtype_ok mt -> seq_ok seqid ->
  schema_ok e -> schema_closed e = true ->
  wfd (ml_dok L) e SL CL (TStruct n) v = true -> (sdepth v <= 64)%nat ->
  (length (ml_body L e n v) <= F)%nat ->
  (if mt =? EXCEPTION then e = app_env /\ n = O else e = env /\ n = m_result m) ->
  exists x', arecv P env Kc F m (mkcs (mkst x (msg name mt seqid e n v ++ tail) o 0) sent)
    = (Ok (if mt =? EXCEPTION
           then match attrs (with_defaults e (TStruct n) v) with
                | [msg; type] => CApp type msg
                | _ => CApp None None
                end
           else result_of m (with_defaults e (TStruct n) v)),
       mkcs (mkst x' tail o 0) sent)
    /\ ml_idle L x'.
Proof.
  intros Hx Hn Ht Hq He Hc Hwf Hd HF Hk. unfold arecv.
  destruct (mr_begin L name mt seqid (ml_body L e n v ++ ml_end L ++ tail) x o 0
     Hx Hn Ht Hq (mt_body L _ _ _ _)) as (x1 & i1 & E1 & H1).
  assert (exists x' i',
    (if mt =? EXCEPTION then read_struct P app_env DFUEL F O
     else k_read Kc env F (m_result m)) (mkst x1 i1 o 0)
     = (Ok (with_defaults e (TStruct n) v), mkst x' i' o 0)
     /\ ml_rA L x' i' (ml_end L ++ tail)) as (x2 & i2 & E2 & H2).
  { destruct (mt =? EXCEPTION); destruct Hk as [-> ->].
    - apply read_same; assumption.
    - apply (ck_read _ _ _ Hkc); assumption. }
  destruct (mr_end L tail x2 i2 o 0 H2) as (x3 & E3 & H3).
  exists x3. split; [|exact H3].
  unfold message. rewrite <- !app_assoc. unfold bind, on_cl, ret. cbn [cl cl_sent].
  rewrite E1. cbn [cl cl_sent].
  destruct (mt =? EXCEPTION) eqn:Em;
    cbn [cl cl_sent]; rewrite E2; cbn [cl cl_sent]; rewrite E3; reflexivity.
Qed.

Section Server.
Context {H : Type}.
Variable handler : list Z -> list (option value) -> H -> hres * H.

Lemma areply_ok K name mt seqid e n v si xo oi oo sent h : ml_idle L xo ->
  codec_ok L e K ->
  name_ok SL name -> mtype_ok mt -> seq_ok seqid ->
  wfd (ml_dok L) e SL CL (TStruct n) v = true -> (sdepth v <= 64)%nat ->
  exists x', areply (H := H) P K name mt seqid e n v (mkss si (mkst xo oi oo 0) sent h)
    = (Ok tt, mkss si (mkst x' oi [] 0) (sent ++ [oo ++ msg name mt seqid e n v]) h)
    /\ ml_idle L x'.
Proof.
  intros Hx HK Hn Ht Hq Hwf Hd. unfold areply.
  destruct (mw_begin L name mt seqid xo oi oo 0 Hx Hn Ht Hq) as (x1 & E1 & H1).
  destruct (ck_write _ _ _ HK n v x1 oi (oo ++ ml_hdr L name mt seqid) H1 Hwf Hd) as (x2 & E2 & H2).
  destruct (mw_end L x2 oi ((oo ++ ml_hdr L name mt seqid) ++ ml_body L e n v) 0 H2) as (x3 & E3 & H3).
  exists x3. split; [|exact H3].
  unfold bind, on_out. cbn [s_in s_out s_sent s_h]. rewrite E1.
  cbn [s_in s_out s_sent s_h]. rewrite E2. cbn [s_in s_out s_sent s_h]. rewrite E3.
  unfold flush_out. cbn [s_in s_out s_sent s_h px inp out depth]. unfold message.
  rewrite !app_assoc. reflexivity.
Qed.

(** A request: its header, then the part of [aprocess_function] up to the reply. *)
Lemma aprocess_start ms m type args seqid tail io so x sent h h' r F :
  ml_idle L x -> lookup (m_name m) ms = Some m -> name_ok SL (m_name m) -> mtype_ok type ->
  seq_ok seqid -> args_ok L env (m_args m) args ->
  handler (m_name m) (received env (m_args m) args) h = (r, h') ->
  (length (msg (m_name m) type seqid env (m_args m) (VStruct (m_args m) args)) <= F)%nat ->
  exists x',
  aprocess P env Ki Ko handler F ms
    (mkss (mkst x (msg (m_name m) type seqid env (m_args m) (VStruct (m_args m) args)
                   ++ tail) io 0) so sent h)
  = match r with
    | HTransport t => raise (ETransport t)
    | _ => if m_oneway m then ret tt
           else match reply_for env m r with
                | Some (mtype, e, n, v) =>
                    areply P (if mtype =? EXCEPTION then plain P else Ko)
                      (m_name m) mtype seqid e n v
                | None => ret tt
                end
    end (mkss (mkst x' tail io 0) so sent h')
  /\ ml_idle L x'.
Proof.
  intros Hx Hl Hn Ht Hq [Hwf Hd] Hr HF.
  destruct (mr_begin L (m_name m) type seqid
     (ml_body L env (m_args m) (VStruct (m_args m) args) ++ ml_end L ++ tail) x io 0
     Hx Hn Ht Hq (mt_body L _ _ _ _)) as (x1 & i1 & E1 & H1).
  unfold message in HF. rewrite !app_length in HF.
  destruct (ck_read _ _ _ Hki (m_args m) _ (ml_end L ++ tail) x1 i1 io F H1
     Hwf Hd ltac:(lia)) as (x2 & i2 & E2 & H2).
  destruct (mr_end L tail x2 i2 io 0 H2) as (x3 & E3 & H3).
  exists x3. split; [|exact H3].
  unfold aprocess, message. rewrite <- !app_assoc. unfold bind at 1, on_in at 1.
  cbn [s_in s_out s_sent s_h]. rewrite E1. unfold adispatch. rewrite Hl.
  unfold aprocess_function, bind, on_in. cbn [s_in s_out s_sent s_h]. rewrite E2.
  cbn [s_in s_out s_sent s_h]. rewrite E3.
  unfold call_handler. cbn [s_in s_out s_sent s_h].
  unfold received in Hr. rewrite Hr. reflexivity.
Qed.

Variable ms : list method.
Hypothesis Hms : service_ok env SL ms.
Hypothesis HSL : 14 <= SL.

Lemma acall_ok m args h h' r y : In m ms ->
  args_ok L env (m_args m) args ->
  handler (m_name m) (received env (m_args m) args) h = (r, h') ->
  (m_oneway m = false -> handler_okd (ml_dok L) env SL CL m r) -> (forall t, r <> HTransport t) ->
  quiet L h y ->
  exists y', acall P env Kc Ki Ko handler ms m args y
    = (Ok (if m_oneway m then CReturn None else expected env m r), y')
    /\ quiet L h' y'.
Proof.
  intros Hi Ha Hr Hh Htr (xc & xi & xo & -> & Hxc & Hxi & Hxo).
  destruct Hms as [Hnd Hall]. destruct (Hall m Hi) as [Hn Hm].
  pose proof (lookup_unique _ _ Hnd Hi) as Hl.
  unfold acall, at_client.
  destruct (asend_ok m args xc [] [] [] Hxc Hn ltac:(apply Ha) ltac:(apply Ha))
    as (xc1 & Es & Hxc1).
  unfold bind at 1. cbn [fst snd]. rewrite Es. cbn [app].
  set (ty := if m_oneway m then ONEWAY else CALL).
  assert (Ht : mtype_ok ty)
    by (unfold ty, mtype_ok, ONEWAY, CALL; destruct (m_oneway m); lia).
  set (rq := msg (m_name m) ty 0 env (m_args m) (VStruct (m_args m) args)).
  unfold bind at 1. cbv beta.
  unfold deliver_requests, feed. cbn [cl cl_sent s_in s_out s_sent s_h px inp out depth concat].
  rewrite app_nil_r. cbn [app].
  unfold aserve_one. cbn [s_in inp].
  destruct (aprocess_start ms m ty args 0 [] [] (mkst xo [] [] 0) xi [] h h' r (length rq)
    Hxi Hl Hn Ht eq_refl Ha Hr (Nat.le_refl _)) as (xi' & Ep & Hxi').
  fold rq in Ep. rewrite app_nil_r in Ep. rewrite Ep. clear Ep.
  destruct (m_oneway m) eqn:Ho.
  - replace (snd _) with (mkss (mkst xi' [] [] 0) (mkst xo [] [] 0) ([] : list (list byte)) h')
      by (destruct r; try reflexivity; exfalso; eapply Htr; reflexivity).
    unfold deliver_replies, feed.
    cbn [cl cl_sent s_in s_out s_sent s_h px inp out depth concat app].
    unfold ret. eexists. split; [reflexivity|].
    exists xc1, xi', xo. repeat split; assumption.
  - destruct (reply_for_ok (ml_dok L) env SL CL m (Hm eq_refl) HSL Henv Hclosed r (Hh eq_refl) Htr)
      as (e & n & v & Er & He & Hc & Hwf' & Hd' & Hmt & Hk).
    destruct (areply_ok (if reply_type m r =? EXCEPTION then plain P else Ko)
      (m_name m) (reply_type m r) 0 e n v (mkst xi' [] [] 0) xo [] [] [] h' Hxo)
      as (xo' & Ep & Hxo'); try assumption; [|reflexivity|].
    { destruct (reply_type m r =? EXCEPTION).
      - apply plain_ok; assumption.
      - destruct Hk as (-> & _). exact Hko. }
    assert (Ep' : forall A (k : sstate X H -> A), k (snd
      (match r with
       | HTransport t => raise (ETransport t)
       | _ => match reply_for env m r with
              | Some (mtype, e, n, v) =>
                  areply P (if mtype =? EXCEPTION then plain P else Ko)
                    (m_name m) mtype 0 e n v
              | None => ret tt
              end
       end (mkss (mkst xi' [] [] 0) (mkst xo [] [] 0) [] h')))
      = k (mkss (mkst xi' [] [] 0) (mkst xo' [] [] 0)
             [msg (m_name m) (reply_type m r) 0 e n v] h')).
    { intros A k. f_equal. rewrite Er. cbn [app] in Ep.
      destruct r; try exact (f_equal snd Ep). exfalso. eapply Htr; reflexivity. }
    rewrite (Ep' _ (fun s => s)). clear Ep'.
    unfold deliver_replies, feed.
    cbn [cl cl_sent s_in s_out s_sent s_h px inp out depth concat app fst snd].
    rewrite app_nil_r.
    set (rp := msg (m_name m) (reply_type m r) 0 e n v).
    destruct (arecv_reply m (m_name m) 0 e n v (reply_type m r) [] xc1 [] []
      (length rp) Hxc1 Hn Hmt eq_refl He Hc Hwf' Hd') as (xc2 & Erc & Hxc2).
    { unfold rp, message. rewrite !app_length. lia. }
    { destruct (reply_type m r =? EXCEPTION); tauto. }
    fold rp in Erc. rewrite app_nil_r in Erc. rewrite Erc.
    eexists. split.
    + f_equal. f_equal. destruct (reply_type m r =? EXCEPTION);
        destruct Hk as (_ & _ & ->); reflexivity.
    + exists xc2, xi', xo'. repeat split; assumption.
Qed.

Lemma acalls_ok l : forall h y,
  (forall m args, In (m, args) l ->
     In m ms /\ args_ok L env (m_args m) args) ->
  good_historyd (ml_dok L) env handler SL CL l h -> quiet L h y ->
  exists y', acalls P env Kc Ki Ko handler ms l y = (fst (reference env handler l h), y')
    /\ quiet L (snd (reference env handler l h)) y'.
Proof.
  induction l as [|[m args] l IH]; intros h y Hall Hg Hy.
  - exists y. split; [reflexivity|exact Hy].
  - cbn [acalls reference good_historyd] in *.
    destruct (handler (m_name m) (received env (m_args m) args) h) as [r h'] eqn:Hr.
    destruct Hg as (Hh & Htr & Hg).
    destruct (Hall m args (or_introl eq_refl)) as [Hi Ha].
    destruct (acall_ok m args h h' r y Hi Ha Hr Hh Htr Hy) as (y1 & E1 & Hy1).
    rewrite E1.
    destruct (IH h' y1 (fun m a Hin => Hall m a (or_intror Hin)) Hg Hy1) as (y2 & E2 & Hy2).
    rewrite E2. destruct (reference env handler l h') as [os h'']. cbn [fst snd] in *.
    exists y2. split; [reflexivity|exact Hy2].
Qed.
End Server.
End Run.
