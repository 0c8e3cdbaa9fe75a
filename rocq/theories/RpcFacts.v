(** Facts about generated clients and processors over any protocol with
    message laws. *)
From Coq Require Import String.
From Coq Require Import ZArith List Bool Lia.
From Coq Require Import Init.Byte.
From Coq Require Import ZifyBool ZifyNat ZifyN.
From Verif Require Import Base Bytes Utf8 Proto Spec Laws StructFacts InstFacts
  MsgLaws Rpc.
Import ListNotations.
Open Scope Z_scope.
Open Scope list_scope.

(** * Vocabulary *)

(** The result class is the one the generator makes. *)
Definition method_ok (env : schema) (m : method) : Prop :=
  nth_error env (m_result m) = Some (result_fields m).

(** What the handler does is encodable, its doubles being among [D]. *)
Definition handler_okd (D : Z -> bool) (env : schema) (SL CL : Z) (m : method) (r : hres) : Prop :=
  match r with
  | HReturn (Some v) =>
      match m_ret m with
      | Some t => wfd D env SL CL t v = true /\ (sdepth v <= 63)%nat
      | None => True
      end
  | HRaise (VStruct c fs) =>
      In c (map snd (m_xs m)) ->
      wfd D env SL CL (TStruct c) (VStruct c fs) = true
      /\ (sdepth (VStruct c fs) <= 63)%nat
  | HApp t msg =>
      seq_ok t /\ match msg with Some s => name_ok SL s | None => True end
  | _ => True
  end.

Notation handler_ok := (handler_okd (fun _ => true)).

Definition declared (m : method) (v : value) : bool :=
  match v with
  | VStruct c _ => existsb (fun x => Nat.eqb c (snd x)) (m_xs m)
  | _ => false
  end.

Definition class_of (v : value) : nat := match v with VStruct c _ => c | _ => O end.

(** What the caller should see. *)
Definition expected (env : schema) (m : method) (r : hres) : cresult :=
  match r with
  | HReturn v =>
      match m_ret m, v with
      | None, _ => CReturn None
      | Some t, Some x => CReturn (Some (with_defaults env t x))
      | Some _, None =>
          CApp (Some (VInt TA_MISSING_RESULT))
               (Some (VStr (m_name m ++ lit " failed: unknown result")))
      end
  | HRaise v =>
      if declared m v then CThrow (with_defaults env (TStruct (class_of v)) v)
      else CApp (Some (VInt TA_INTERNAL_ERROR)) (Some (VStr (lit "Internal error")))
  | HApp t msg => CApp (Some (VInt t)) (option_map VStr msg)
  | HTransport _ | HOther =>
      CApp (Some (VInt TA_INTERNAL_ERROR)) (Some (VStr (lit "Internal error")))
  end.

(** Message type of the reply. *)
Definition reply_type (m : method) (r : hres) : Z :=
  match r with
  | HReturn _ => REPLY
  | HRaise v => if declared m v then REPLY else EXCEPTION
  | _ => EXCEPTION
  end.

(** * Field lists *)

Definition wf_go (D : Z -> bool) env SL CL :=
  fix go (fs : list (option value)) (ds : list fielddef) : bool :=
    match fs, ds with
    | [], [] => true
    | f :: fs', d :: ds' =>
        match f with
        | None => negb (f_req d)
        | Some x => wfd D env SL CL (f_ty d) x
        end && go fs' ds'
    | _, _ => false
    end.

Lemma wf_struct D env SL CL n fs ds : nth_error env n = Some ds ->
  wfd D env SL CL (TStruct n) (VStruct n fs) = wf_go D env SL CL fs ds.
Proof. intros H. cbn [wfd]. rewrite Nat.eqb_refl, H. reflexivity. Qed.

Definition wd_go env :=
  fix go (fs : list (option value)) (ds : list fielddef) : list (option value) :=
    match fs, ds with
    | f :: fs', d :: ds' =>
        match f with
        | Some x => Some (with_defaults env (f_ty d) x)
        | None => f_def d
        end :: go fs' ds'
    | _, _ => []
    end.

Lemma wd_struct env n m fs ds : nth_error env n = Some ds ->
  with_defaults env (TStruct m) (VStruct n fs) = VStruct n (wd_go env fs ds).
Proof. intros H. cbn [with_defaults]. rewrite H. reflexivity. Qed.

Lemma wf_go_none D env SL CL (xs : list (Z * nat)) :
  wf_go D env SL CL (map (fun _ => None) xs) (map xfield xs) = true.
Proof. induction xs as [|x r IH]; [reflexivity|exact IH]. Qed.

Lemma wd_go_none env (xs : list (Z * nat)) :
  wd_go env (map (fun _ => None) xs) (map xfield xs) = map (fun _ => None) xs.
Proof. induction xs as [|x r IH]; cbn; [reflexivity|f_equal; exact IH]. Qed.

Lemma first_set_none (xs : list (Z * nat)) :
  first_set (map (fun _ => None) xs) = None.
Proof. induction xs as [|x r IH]; [reflexivity|exact IH]. Qed.

Definition fdepth (fs : list (option value)) : nat :=
  fold_right (fun f a => match f with
                         | Some x => Nat.max (sdepth x) a
                         | None => a
                         end) O fs.

Lemma sdepth_struct n fs : sdepth (VStruct n fs) = S (fdepth fs).
Proof. reflexivity. Qed.

Lemma fdepth_none (xs : list (Z * nat)) : fdepth (map (fun _ => None) xs) = O.
Proof. induction xs as [|x r IH]; [reflexivity|exact IH]. Qed.

Lemma catch_spec D env SL CL xs c v : wfd D env SL CL (TStruct c) v = true ->
  forall fs, catch xs c v = Some fs ->
  wf_go D env SL CL fs (map xfield xs) = true
  /\ first_set (wd_go env fs (map xfield xs)) = Some (with_defaults env (TStruct c) v)
  /\ fdepth fs = sdepth v.
Proof.
  intros Hwf. induction xs as [|[i c'] r IH]; intros fs Hc; [discriminate|].
  cbn [catch] in Hc. destruct (Nat.eqb_spec c c') as [<-|Hn].
  - assert (fs = Some v :: map (fun _ => None) r) by congruence. subst fs.
    cbn [map wf_go wd_go first_set fdepth fold_right xfield f_ty fst snd].
    rewrite Hwf. cbn [andb]. change (fold_right _ _ _) with (fdepth (map (fun _ : Z * nat => None) r)).
    rewrite fdepth_none. split; [apply wf_go_none|]. split; [reflexivity|lia].
  - destruct (catch r c v) as [fs'|]; [|discriminate].
    assert (fs = None :: fs') by (cbn in Hc; congruence). subst fs.
    destruct (IH fs' eq_refl) as (A & B & DD).
    cbn [map wf_go wd_go first_set fdepth fold_right xfield f_req f_def negb andb].
    auto.
Qed.

Lemma catch_declared m c fs :
  (exists xs, catch (m_xs m) c (VStruct c fs) = Some xs)
  <-> declared m (VStruct c fs) = true.
Proof.
  cbn [declared]. induction (m_xs m) as [|[i c'] r IH]; cbn [catch existsb snd].
  - split; [intros [? ?]; discriminate|discriminate].
  - destruct (Nat.eqb c c'); cbn [orb].
    + split; eauto.
    + rewrite <- IH. split.
      * intros [xs Hx]. destruct (catch r c (VStruct c fs)); [eauto|discriminate].
      * intros [xs Hx]. rewrite Hx. cbn. eauto.
Qed.

Lemma declared_In m c fs : declared m (VStruct c fs) = true -> In c (map snd (m_xs m)).
Proof.
  cbn [declared]. intros H. apply existsb_exists in H as (x & Hx & E).
  apply Nat.eqb_eq in E. subst c. apply in_map. assumption.
Qed.

(** * The exception schema *)

Lemma app_env_ok : schema_ok app_env.
Proof.
  intros n ds H. destruct n as [|[|n]]; try discriminate. cbn in H.
  assert (ds = [mkfield 1 TString false None;
                mkfield 2 TI32 false (Some (VInt TA_UNKNOWN))]) by congruence.
  subst ds. split.
  - repeat constructor; cbn; intuition lia.
  - intros d [<-|[<-|[]]]; reflexivity.
Qed.

Lemma app_env_closed : schema_closed app_env = true.
Proof. reflexivity. Qed.

Lemma app_exn_wf D SL CL t msg : seq_ok t ->
  match msg with Some s => name_ok SL s | None => True end ->
  wfd D app_env SL CL (TStruct 0) (app_exn t msg) = true.
Proof.
  intros Ht Hm. unfold app_exn. erewrite wf_struct by reflexivity.
  unfold seq_ok in Ht. destruct msg; cbn [option_map wf_go wfd f_ty f_req negb andb].
  - unfold name_ok in Hm. cbn [base_okd] in *. rewrite Hm, Ht. reflexivity.
  - cbn [base_okd]. rewrite Ht. reflexivity.
Qed.

Lemma app_exn_wd t msg :
  with_defaults app_env (TStruct 0) (app_exn t msg) = app_exn t msg.
Proof. destruct msg; reflexivity. Qed.

Lemma internal_error_ok SL : 14 <= SL -> name_ok SL (lit "Internal error").
Proof. intros H. unfold name_ok, base_okd, len_le. cbn. lia. Qed.

(** * Replies *)

Section Replies.
Variables (D : Z -> bool) (env : schema) (SL CL : Z) (m : method).
Hypothesis Hm : method_ok env m.
Hypothesis HSL : 14 <= SL.
Hypothesis Henv : schema_ok env.
Hypothesis Hclosed : schema_closed env = true.

Lemma success_wf v : handler_okd D env SL CL m (HReturn v) ->
  wfd D env SL CL (TStruct (m_result m)) (success_result m v) = true
  /\ (sdepth (success_result m v) <= 64)%nat
  /\ result_of m (with_defaults env (TStruct (m_result m)) (success_result m v))
     = expected env m (HReturn v).
Proof.
  intros Hh. unfold success_result. rewrite (wf_struct _ _ _ _ _ _ _ Hm).
  rewrite (wd_struct _ _ _ _ _ Hm), sdepth_struct. unfold no_xs, result_fields, result_of.
  cbn [handler_okd expected] in *. destruct (m_ret m) as [t|].
  - cbn [app wf_go wd_go attrs f_ty f_req f_def negb fdepth fold_right tl].
    change (fold_right _ _ _) with (fdepth (map (fun _ : Z * nat => None) (m_xs m))).
    rewrite wf_go_none, wd_go_none, fdepth_none, first_set_none.
    destruct v as [x|].
    + destruct Hh as [Hw Hd]. rewrite Hw. repeat split; lia.
    + repeat split; lia.
  - cbn [app attrs]. rewrite wf_go_none, wd_go_none, fdepth_none, first_set_none.
    destruct v; repeat split; lia.
Qed.

Lemma exn_wf c fs xs : handler_okd D env SL CL m (HRaise (VStruct c fs)) ->
  catch (m_xs m) c (VStruct c fs) = Some xs ->
  wfd D env SL CL (TStruct (m_result m)) (exn_result m xs) = true
  /\ (sdepth (exn_result m xs) <= 64)%nat
  /\ result_of m (with_defaults env (TStruct (m_result m)) (exn_result m xs))
     = expected env m (HRaise (VStruct c fs)).
Proof.
  intros Hh Hc.
  assert (Hdec : declared m (VStruct c fs) = true).
  { apply catch_declared. eauto. }
  cbn [handler_okd] in Hh. destruct (Hh (declared_In _ _ _ Hdec)) as [Hw Hd].
  destruct (catch_spec D env SL CL (m_xs m) c _ Hw xs Hc) as (A & B & DD).
  unfold exn_result. rewrite (wf_struct _ _ _ _ _ _ _ Hm), (wd_struct _ _ _ _ _ Hm),
    sdepth_struct. unfold result_fields, result_of.
  change (expected env m (HRaise (VStruct c fs))) with
    (if declared m (VStruct c fs) then CThrow (with_defaults env (TStruct c) (VStruct c fs))
     else CApp (Some (VInt TA_INTERNAL_ERROR)) (Some (VStr (lit "Internal error")))).
  rewrite Hdec. destruct (m_ret m) as [t|].
  - cbn [app wf_go wd_go attrs f_ty f_req f_def negb andb tl fdepth fold_right].
    change (fold_right _ _ xs) with (fdepth xs).
    rewrite A, B. repeat split; lia.
  - cbn [app attrs]. rewrite A, B. repeat split; lia.
Qed.

(** A reply exists for everything but TTransportException, is well formed, and
    the client makes of it what it should. *)
Lemma reply_for_ok r : handler_okd D env SL CL m r -> (forall t, r <> HTransport t) ->
  exists e n v, reply_for env m r = Some (reply_type m r, e, n, v)
    /\ schema_ok e /\ schema_closed e = true
    /\ wfd D e SL CL (TStruct n) v = true /\ (sdepth v <= 64)%nat
    /\ mtype_ok (reply_type m r)
    /\ match reply_type m r =? EXCEPTION with
       | true => e = app_env /\ n = O
                 /\ expected env m r
                    = match attrs (with_defaults e (TStruct n) v) with
                      | [msg; type] => CApp type msg
                      | _ => CApp None None
                      end
       | false => e = env /\ n = m_result m
                  /\ expected env m r = result_of m (with_defaults e (TStruct n) v)
       end.
Proof.
  intros Hh Ht.
  assert (IE : wfd D app_env SL CL (TStruct 0) internal_error = true).
  { apply app_exn_wf; [reflexivity|apply internal_error_ok; assumption]. }
  assert (G : forall r', reply_for env m r' = Some (EXCEPTION, app_env, O, internal_error) ->
    reply_type m r' = EXCEPTION ->
    expected env m r' = CApp (Some (VInt TA_INTERNAL_ERROR)) (Some (VStr (lit "Internal error"))) ->
    exists e n v, reply_for env m r' = Some (reply_type m r', e, n, v)
    /\ schema_ok e /\ schema_closed e = true
    /\ wfd D e SL CL (TStruct n) v = true /\ (sdepth v <= 64)%nat
    /\ mtype_ok (reply_type m r')
    /\ match reply_type m r' =? EXCEPTION with
       | true => e = app_env /\ n = O
                 /\ expected env m r'
                    = match attrs (with_defaults e (TStruct n) v) with
                      | [msg; type] => CApp type msg
                      | _ => CApp None None
                      end
       | false => e = env /\ n = m_result m
                  /\ expected env m r' = result_of m (with_defaults e (TStruct n) v)
       end).
  { intros r' E1 E2 E3. exists app_env, O, internal_error. rewrite E1, E2, E3.
    change (EXCEPTION =? EXCEPTION) with true. cbv iota.
    split; [reflexivity|]. split; [apply app_env_ok|]. split; [reflexivity|].
    split; [exact IE|]. split; [cbn; lia|]. split; [unfold mtype_ok, EXCEPTION; lia|].
    repeat split. }
  destruct r as [v|v|t msg|t|].
  - exists env, (m_result m), (success_result m v).
    destruct (success_wf v Hh) as (A & B & DD).
    split; [reflexivity|]. split; [assumption|]. split; [assumption|].
    split; [exact A|]. split; [exact B|]. cbn [reply_type].
    split; [unfold mtype_ok, REPLY; lia|]. cbn. repeat split. symmetry. exact DD.
  - destruct v as [| | | | | | | | |c fs]; try (apply G; reflexivity).
    destruct (catch (m_xs m) c (VStruct c fs)) as [xs|] eqn:Ec.
    + assert (Hdec : declared m (VStruct c fs) = true) by (apply catch_declared; eauto).
      destruct (exn_wf c fs xs Hh Ec) as (A & B & DD).
      exists env, (m_result m), (exn_result m xs). cbn [reply_for reply_type].
      rewrite Ec, Hdec.
      split; [reflexivity|]. split; [assumption|]. split; [assumption|].
      split; [exact A|]. split; [exact B|].
      split; [unfold mtype_ok, REPLY; lia|]. cbn [Z.eqb REPLY EXCEPTION].
      change (REPLY =? EXCEPTION) with false. cbv iota.
      repeat split. symmetry. exact DD.
    + assert (Hdec : declared m (VStruct c fs) = false).
      { destruct (declared m (VStruct c fs)) eqn:E; [|reflexivity].
        apply catch_declared in E as [xs E]. congruence. }
      apply G; cbn [reply_for reply_type expected].
      * rewrite Ec. reflexivity.
      * rewrite Hdec. reflexivity.
      * rewrite Hdec. reflexivity.
  - destruct Hh as [H1 H2]. exists app_env, O, (app_exn t msg).
    cbn [reply_for reply_type]. split; [reflexivity|]. split; [apply app_env_ok|].
    split; [reflexivity|]. split; [apply app_exn_wf; assumption|].
    split; [destruct msg; cbn; lia|]. split; [unfold mtype_ok, EXCEPTION; lia|].
    change (EXCEPTION =? EXCEPTION) with true. cbv iota.
    rewrite app_exn_wd. repeat split.
  - exfalso. eapply Ht. reflexivity.
  - apply G; reflexivity.
Qed.
End Replies.

(** * Running *)

Lemma lookup_name name ms m : lookup name ms = Some m -> m_name m = name /\ In m ms.
Proof.
  unfold lookup. intros H. apply find_some in H as [Hi E].
  split; [|apply in_rev; assumption].
  unfold name_eqb in E. destruct (list_eq_dec Z.eq_dec name (m_name m)); congruence.
Qed.

Section Run.
Context {X : Type} {P : proto X} {SL CL : Z} (L : mlaws P SL CL).
Variables (env : schema).
Hypothesis Henv : schema_ok env.
Hypothesis Hclosed : schema_closed env = true.

Notation msg := (message L).

Lemma read_same e n v tail x i o F : schema_ok e -> schema_closed e = true ->
  ml_rB L x i (ml_body L e n v ++ tail) ->
  wfd (ml_dok L) e SL CL (TStruct n) v = true -> (sdepth v <= 64)%nat ->
  (length (ml_body L e n v) <= F)%nat ->
  exists x' i', read_struct P e DFUEL F n (mkst x i o 0)
                = (Ok (with_defaults e (TStruct n) v), mkst x' i' o 0)
                /\ ml_rA L x' i' tail.
Proof.
  intros He Hc Hr Hwf Hd HF.
  destruct (mr_body L e e (same e) n n v tail x i o F Hr He He
    (compat_env_same _ He Hc) (same_in _ _ (wfd_struct_in _ _ _ _ _ _ Hwf)) Hwf Hd
    (drop_ok_same _ _ _ _ He _ _ _ Hwf) HF) as (x' & i' & E & Hx').
  exists x', i'. split; [|exact Hx'].
  rewrite E, (proj_with_defaults _ _ _ _ He _ Hwf). reflexivity.
Qed.

(** Client side *)

Lemma send_ok m args x i o sent : ml_idle L x -> name_ok SL (m_name m) ->
  wfd (ml_dok L) env SL CL (TStruct (m_args m)) (VStruct (m_args m) args) = true ->
  (sdepth (VStruct (m_args m) args) <= 64)%nat ->
  exists x', send P env m args (mkcs (mkst x i o 0) sent)
    = (Ok tt, mkcs (mkst x' i [] 0)
        (sent ++ [o ++ msg (m_name m) (if m_oneway m then ONEWAY else CALL) 0
                        env (m_args m) (VStruct (m_args m) args)]))
    /\ ml_idle L x'.
Proof.
  intros Hx Hn Hwf Hd. unfold send.
  set (ty := if m_oneway m then ONEWAY else CALL).
  assert (Ht : mtype_ok ty)
    by (unfold ty, mtype_ok, ONEWAY, CALL; destruct (m_oneway m); lia).
  destruct (mw_begin L (m_name m) ty 0 x i o 0 Hx Hn Ht eq_refl) as (x1 & E1 & H1).
  destruct (mw_body L env (m_args m) (VStruct (m_args m) args) x1 i
     (o ++ ml_hdr L (m_name m) ty 0) H1 Henv Hwf Hd) as (x2 & E2 & H2).
  destruct (mw_end L x2 i ((o ++ ml_hdr L (m_name m) ty 0) ++ ml_body L env (m_args m) (VStruct (m_args m) args)) 0 H2) as (x3 & E3 & H3).
  exists x3. split; [|exact H3].
  unfold bind, on_cl. cbn [cl cl_sent]. rewrite E1. cbn [cl cl_sent].
  rewrite E2. cbn [cl cl_sent]. rewrite E3. cbn [cl cl_sent].
  unfold cl_flush. cbn [cl cl_sent px inp out depth]. unfold message.
  rewrite !app_assoc. reflexivity.
Qed.

Lemma recv_reply m name seqid e n v mt tail x o sent F : ml_idle L x ->
  name_ok SL name -> mtype_ok mt -> seq_ok seqid ->
  schema_ok e -> schema_closed e = true ->
  wfd (ml_dok L) e SL CL (TStruct n) v = true -> (sdepth v <= 64)%nat ->
  (length (ml_body L e n v) <= F)%nat ->
  (if mt =? EXCEPTION then e = app_env /\ n = O else e = env /\ n = m_result m) ->
  exists x', recv P env F m (mkcs (mkst x (msg name mt seqid e n v ++ tail) o 0) sent)
    = (Ok (if mt =? EXCEPTION
           then match attrs (with_defaults e (TStruct n) v) with
                | [msg; type] => CApp type msg
                | _ => CApp None None
                end
           else result_of m (with_defaults e (TStruct n) v)),
       mkcs (mkst x' tail o 0) sent)
    /\ ml_idle L x'.
Proof.
  intros Hx Hn Ht Hq He Hc Hwf Hd HF Hk. unfold recv.
  destruct (mr_begin L name mt seqid (ml_body L e n v ++ ml_end L ++ tail) x o 0
     Hx Hn Ht Hq (mt_body L _ _ _ _)) as (x1 & i1 & E1 & H1).
  destruct (read_same e n v (ml_end L ++ tail) x1 i1 o F He Hc H1 Hwf Hd HF)
    as (x2 & i2 & E2 & H2).
  destruct (mr_end L tail x2 i2 o 0 H2) as (x3 & E3 & H3).
  exists x3. split; [|exact H3].
  unfold message. rewrite <- !app_assoc. unfold bind, on_cl, ret. cbn [cl cl_sent].
  rewrite E1. cbn [cl cl_sent].
  destruct (mt =? EXCEPTION) eqn:Em; destruct Hk as [-> ->];
    cbn [cl cl_sent]; rewrite E2; cbn [cl cl_sent]; rewrite E3; reflexivity.
Qed.

(** Server side *)

Section Server.
Context {H : Type}.
Variable handler : list Z -> list (option value) -> H -> hres * H.

Lemma reply_ok name mt seqid e n v si xo oi oo sent h : ml_idle L xo ->
  name_ok SL name -> mtype_ok mt -> seq_ok seqid -> schema_ok e ->
  wfd (ml_dok L) e SL CL (TStruct n) v = true -> (sdepth v <= 64)%nat ->
  exists x', reply (H := H) P name mt seqid e n v (mkss si (mkst xo oi oo 0) sent h)
    = (Ok tt, mkss si (mkst x' oi [] 0) (sent ++ [oo ++ msg name mt seqid e n v]) h)
    /\ ml_idle L x'.
Proof.
  intros Hx Hn Ht Hq He Hwf Hd. unfold reply.
  destruct (mw_begin L name mt seqid xo oi oo 0 Hx Hn Ht Hq) as (x1 & E1 & H1).
  destruct (mw_body L e n v x1 oi (oo ++ ml_hdr L name mt seqid) H1 He Hwf Hd) as (x2 & E2 & H2).
  destruct (mw_end L x2 oi ((oo ++ ml_hdr L name mt seqid) ++ ml_body L e n v) 0 H2) as (x3 & E3 & H3).
  exists x3. split; [|exact H3].
  unfold bind, on_out. cbn [s_in s_out s_sent s_h]. rewrite E1.
  cbn [s_in s_out s_sent s_h]. rewrite E2. cbn [s_in s_out s_sent s_h]. rewrite E3.
  unfold flush_out. cbn [s_in s_out s_sent s_h px inp out depth]. unfold message.
  rewrite !app_assoc. reflexivity.
Qed.

(** What process leaves behind: the input protocol idle behind the request,
    the output protocol idle with an empty buffer. *)
Definition left_at (tail io oi : list byte) (sent : list (list byte)) (h : H)
    (s : sstate X H) : Prop :=
  exists xi xo, s = mkss (mkst xi tail io 0) (mkst xo oi [] 0) sent h
    /\ ml_idle L xi /\ ml_idle L xo.

(** The part of a request after its header. *)
Definition request_body (n : nat) (args : list (option value)) : list byte :=
  ml_body L env n (VStruct n args) ++ ml_end L.

Definition args_ok (n : nat) (args : list (option value)) : Prop :=
  wfd (ml_dok L) env SL CL (TStruct n) (VStruct n args) = true
  /\ (sdepth (VStruct n args) <= 64)%nat.

(** The attributes the handler gets. *)
Definition received (n : nat) (args : list (option value)) : list (option value) :=
  attrs (with_defaults env (TStruct n) (VStruct n args)).

Section One.
Variables (m : method) (args : list (option value)) (seqid : Z).
Hypothesis Hn : name_ok SL (m_name m).
Hypothesis Hq : seq_ok seqid.
Hypothesis Ha : args_ok (m_args m) args.
Variables (tail io oi : list byte) (xi xo : X) (i : list byte).
Variables (sent : list (list byte)) (h h' : H) (r : hres) (F : nat).
Hypothesis Hin : ml_rB L xi i (request_body (m_args m) args ++ tail).
Hypothesis Hout : ml_idle L xo.
Hypothesis Hr : handler (m_name m) (received (m_args m) args) h = (r, h').
Hypothesis HF : (length (request_body (m_args m) args) <= F)%nat.

Let s0 (oo : list byte) := mkss (mkst xi i io 0) (mkst xo oi oo 0) sent h.

Lemma process_function_start oo : exists x',
  process_function P env handler F m seqid (s0 oo)
  = match r with
    | HTransport t => raise (ETransport t)
    | _ => if m_oneway m then ret tt
           else match reply_for env m r with
                | Some (mtype, e, n, v) => reply P (m_name m) mtype seqid e n v
                | None => ret tt
                end
    end (mkss (mkst x' tail io 0) (mkst xo oi oo 0) sent h')
  /\ ml_idle L x'.
Proof.
  destruct Ha as [Hwf Hd]. unfold request_body in Hin, HF. rewrite <- app_assoc in Hin.
  rewrite app_length in HF.
  destruct (read_same env (m_args m) _ (ml_end L ++ tail) xi i io F Henv Hclosed Hin
     Hwf Hd ltac:(lia)) as (x2 & i2 & E2 & H2).
  destruct (mr_end L tail x2 i2 io 0 H2) as (x3 & E3 & H3).
  exists x3. split; [|exact H3].
  unfold process_function, s0, bind, on_in. cbn [s_in s_out s_sent s_h]. rewrite E2.
  cbn [s_in s_out s_sent s_h]. rewrite E3.
  unfold call_handler. cbn [s_in s_out s_sent s_h].
  unfold received in Hr. rewrite Hr. reflexivity.
Qed.

Lemma process_two_way oo : 14 <= SL -> m_oneway m = false -> method_ok env m ->
  handler_okd (ml_dok L) env SL CL m r -> (forall t, r <> HTransport t) ->
  exists e n v, reply_for env m r = Some (reply_type m r, e, n, v) /\
  exists s', process_function P env handler F m seqid (s0 oo) = (Ok tt, s')
    /\ left_at tail io oi
         (sent ++ [oo ++ msg (m_name m) (reply_type m r) seqid e n v]) h' s'.
Proof.
  intros HSL Ho Hm Hh Ht.
  destruct (process_function_start oo) as (x1 & E1 & H1).
  destruct (reply_for_ok (ml_dok L) env SL CL m Hm HSL Henv Hclosed r Hh Ht)
    as (e & n & v & Er & He & Hc & Hwf & Hd & Hmt & _).
  exists e, n, v. split; [exact Er|].
  destruct (reply_ok (m_name m) (reply_type m r) seqid e n v (mkst x1 tail io 0) xo oi oo
     sent h' Hout Hn Hmt Hq He Hwf Hd) as (x2 & E2 & H2).
  exists (mkss (mkst x1 tail io 0) (mkst x2 oi [] 0)
    (sent ++ [oo ++ msg (m_name m) (reply_type m r) seqid e n v]) h'). split.
  - rewrite E1. destruct r; try (rewrite Ho, Er; exact E2). exfalso. eapply Ht; reflexivity.
  - exists x1, x2. repeat split; assumption.
Qed.

Lemma process_one_way oo : m_oneway m = true -> (forall t, r <> HTransport t) ->
  exists x', process_function P env handler F m seqid (s0 oo)
    = (Ok tt, mkss (mkst x' tail io 0) (mkst xo oi oo 0) sent h') /\ ml_idle L x'.
Proof.
  intros Ho Ht. destruct (process_function_start oo) as (x1 & E1 & H1).
  exists x1. split; [|exact H1]. rewrite E1.
  destruct r; try (rewrite Ho; reflexivity). exfalso. eapply Ht; reflexivity.
Qed.

Lemma process_transport oo t : r = HTransport t ->
  exists x', process_function P env handler F m seqid (s0 oo)
    = (Raise (ETransport t), mkss (mkst x' tail io 0) (mkst xo oi oo 0) sent h')
    /\ ml_idle L x'.
Proof.
  intros Et. destruct (process_function_start oo) as (x1 & E1 & H1).
  rewrite Et in E1. exists x1. split; [exact E1|exact H1].
Qed.
End One.

(** Unknown methods *)
Lemma dispatch_unknown ms name type seqid e n args tail io oi oo xi xo i sent h F :
  lookup name ms = None -> name_ok SL name -> seq_ok seqid ->
  name_ok SL (lit "Unknown function " ++ name) ->
  schema_ok e -> wfd (ml_dok L) e SL CL (TStruct n) (VStruct n args) = true ->
  (vdepth (VStruct n args) <= 64)%nat -> all_bin (ml_skbin L) (VStruct n args) = true ->
  ml_rB L xi i ((ml_body L e n (VStruct n args) ++ ml_end L) ++ tail) -> ml_idle L xo ->
  (length (ml_body L e n (VStruct n args)) <= F)%nat ->
  exists s', dispatch P env handler F ms (name, type, seqid)
      (mkss (mkst xi i io 0) (mkst xo oi oo 0) sent h) = (Ok tt, s')
    /\ left_at tail io oi
         (sent ++ [oo ++ msg name EXCEPTION seqid app_env O
                    (app_exn TA_UNKNOWN_METHOD (Some (lit "Unknown function " ++ name)))])
         h s'.
Proof.
  intros Hl Hn Hq Hu He Hwf Hd Hb Hin Hout HF.
  rewrite <- app_assoc in Hin.
  destruct (mr_skip L e n _ (ml_end L ++ tail) xi i io 0 F Hin He Hwf Hd Hb HF)
    as (x2 & i2 & E2 & H2).
  destruct (mr_end L tail x2 i2 io 0 H2) as (x3 & E3 & H3).
  destruct (reply_ok name EXCEPTION seqid app_env O
     (app_exn TA_UNKNOWN_METHOD (Some (lit "Unknown function " ++ name)))
     (mkst x3 tail io 0) xo oi oo sent h Hout Hn ltac:(unfold mtype_ok, EXCEPTION; lia)
     Hq app_env_ok) as (x4 & E4 & H4).
  { apply app_exn_wf; [reflexivity|exact Hu]. }
  { cbn. lia. }
  eexists. split.
  - unfold dispatch. rewrite Hl. unfold bind, on_in. cbn [s_in s_out s_sent s_h].
    rewrite E2. cbn [s_in s_out s_sent s_h]. rewrite E3. exact E4.
  - exists x3, x4. repeat split; assumption.
Qed.
End Server.
End Run.
