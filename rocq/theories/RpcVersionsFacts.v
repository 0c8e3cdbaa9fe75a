(** Calls between versions of a service. *)
From Coq Require Import String.
From Coq Require Import ZArith List Bool Lia.
From Coq Require Import Init.Byte.
From Coq Require Import ZifyBool ZifyNat ZifyN.
From Verif Require Import Base Bytes Utf8 Proto Spec Laws StructFacts Closure FrameFacts
  InstFacts MsgLaws Rpc RpcFacts RpcSys RpcVersions.
Import ListNotations.
Open Scope Z_scope.
Open Scope list_scope.

(** * What is specified *)

Definition missing (m : method) : cresult :=
  CApp (Some (VInt TA_MISSING_RESULT)) (Some (VStr (m_name m ++ lit " failed: unknown result"))).

(** The id under which the server sends an exception of class [c]. *)
Fixpoint sent_as (c : nat) (xs : list (Z * nat)) : option Z :=
  match xs with
  | [] => None
  | (i, c') :: r => if Nat.eqb c c' then Some i else sent_as c r
  end.

(** The client's class for the exception with id [i]. *)
Fixpoint class_for (i : Z) (xs : list (Z * nat)) : option nat :=
  match xs with
  | [] => None
  | (j, c) :: r => if i =? j then Some c else class_for i r
  end.

Section Spec.
Variables envC envS : schema.

(** What a caller of the client's method [mc] sees when the handler of the
    server's method [sm] does [r]: its own version of the value, ... *)
Definition seen (mc sm : method) (r : hres) : cresult :=
  let nothing := match m_ret mc with None => CReturn None | Some _ => missing mc end in
  let internal := CApp (Some (VInt TA_INTERNAL_ERROR)) (Some (VStr (lit "Internal error"))) in
  match r with
  | HReturn v =>
      match m_ret mc, m_ret sm, v with
      | Some tc, Some ts, Some x =>
          if code ts =? code tc then CReturn (Some (proj envS envC ts tc x)) else nothing
      | _, _, _ => nothing
      end
  | HRaise v =>
      match sent_as (class_of v) (m_xs sm) with
      | Some i =>
          if declared sm v then
            match class_for i (m_xs mc) with
            | Some c => CThrow (proj envS envC (TStruct (class_of v)) (TStruct c) v)
            | None => nothing
            end
          else internal
      | None => internal
      end
  | HApp t msg => CApp (Some (VInt t)) (option_map VStr msg)
  | HTransport _ | HOther => internal
  end.

(** ... and what the handler gets. *)
Definition vreceived (mc sm : method) (args : list (option value)) : list (option value) :=
  attrs (proj envC envS (TStruct (m_args mc)) (TStruct (m_args sm)) (VStruct (m_args mc) args)).

Definition unknown (m : method) : cresult :=
  CApp (Some (VInt TA_UNKNOWN_METHOD)) (Some (VStr (lit "Unknown function " ++ m_name m))).

(** A client program over a server with the methods [ms]. *)
Section History.
Context {H : Type}.
Variable handler : list Z -> list (option value) -> H -> hres * H.
Variable ms : list method.

Fixpoint vreference (l : list (method * list (option value))) (h : H)
  : list (outcome cresult) * H :=
  match l with
  | [] => ([], h)
  | (mc, args) :: r =>
      match lookup (m_name mc) ms with
      | None => let (os, h') := vreference r h in (Ok (unknown mc) :: os, h')
      | Some sm =>
          let (res, h1) := handler (m_name sm) (vreceived mc sm args) h in
          let (os, h') := vreference r h1 in
          (Ok (if m_oneway mc then CReturn None else seen mc sm res) :: os, h')
      end
  end.
End History.
End Spec.

(** The values sent can be encoded; what their receiver does not know can be
    skipped. *)
Section Conditions.
Variable D : Z -> bool.
Variables envC envS : schema.
Variables (SL CL : Z) (skb : list byte -> bool).
Variables RA RR : nat -> nat -> bool.
Context {H : Type}.
Variable handler : list Z -> list (option value) -> H -> hres * H.
Variable ms : list method.

(** [sm] is the server's version of [mc]. *)
Definition version_of (mc sm : method) : Prop :=
  m_oneway mc = m_oneway sm /\ RA (m_args mc) (m_args sm) = true
  /\ (m_oneway mc = false -> RR (m_result sm) (m_result mc) = true
      /\ nth_error envC (m_result mc) = Some (result_fields mc)
      /\ ~ In 0 (map fst (m_xs mc)) /\ ~ In 0 (map fst (m_xs sm))).

Definition answer_known (mc sm : method) (r : hres) : Prop :=
  forall n v, reply_for envS sm r = Some (REPLY, envS, n, v) ->
    drop_ok envS envC skb SKIP_DEPTH (TStruct n) (TStruct (m_result mc)) v = true.

Fixpoint vhistoryd (l : list (method * list (option value))) (h : H) : Prop :=
  match l with
  | [] => True
  | (mc, args) :: r =>
      name_ok SL (m_name mc)
      /\ wfd D envC SL CL (TStruct (m_args mc)) (VStruct (m_args mc) args) = true
      /\ (sdepth (VStruct (m_args mc) args) <= 64)%nat
      /\ match lookup (m_name mc) ms with
         | None =>
             m_oneway mc = false /\ name_ok SL (lit "Unknown function " ++ m_name mc)
             /\ (vdepth (VStruct (m_args mc) args) <= 64)%nat
             /\ all_bin skb (VStruct (m_args mc) args) = true /\ vhistoryd r h
         | Some sm =>
             version_of mc sm
             /\ drop_ok envC envS skb SKIP_DEPTH (TStruct (m_args mc)) (TStruct (m_args sm))
                  (VStruct (m_args mc) args) = true
             /\ (m_oneway mc = false ->
                 handler_okd D envS SL CL sm (fst (handler (m_name sm) (vreceived envC envS mc sm args) h))
                 /\ answer_known mc sm (fst (handler (m_name sm) (vreceived envC envS mc sm args) h)))
             /\ (forall t, fst (handler (m_name sm) (vreceived envC envS mc sm args) h) <> HTransport t)
             /\ vhistoryd r (snd (handler (m_name sm) (vreceived envC envS mc sm args) h))
         end
  end.
End Conditions.

Notation vhistory := (vhistoryd (fun _ => true)).

(** * Reading a reply of another version *)

Section Look.
Variables envW envR : schema.

(** What a reader's field gets. *)
Fixpoint look (dR : fielddef) (fs : list (option value)) (ds : list fielddef) : option value :=
  match fs, ds with
  | f :: fs', d :: ds' =>
      match f with
      | Some x =>
          if (f_id d =? f_id dR) && (code (f_ty d) =? code (f_ty dR))
          then Some (proj envW envR (f_ty d) (f_ty dR) x)
          else look dR fs' ds'
      | None => look dR fs' ds'
      end
  | _, _ => f_def dR
  end.

Lemma proj_struct n m fs dsW dsR k : nth_error envW n = Some dsW -> nth_error envR m = Some dsR ->
  proj envW envR (TStruct k) (TStruct m) (VStruct n fs)
  = VStruct m (map (fun dR => look dR fs dsW) dsR).
Proof.
  intros EW ER. cbn [proj]. rewrite EW, ER. f_equal. apply map_ext. intros dR.
  clear EW. revert dsW. induction fs as [|f r IH]; intros [|d ds]; try reflexivity.
  cbn [look]. destruct f as [x|]; [|apply IH].
  destruct ((f_id d =? f_id dR) && (code (f_ty d) =? code (f_ty dR))); [reflexivity|apply IH].
Qed.

Lemma look_none dR (xs : list (Z * nat)) :
  look dR (map (fun _ => None) xs) (map xfield xs) = f_def dR.
Proof. induction xs as [|x r IH]; [reflexivity|exact IH]. Qed.

Lemma look_catch j c v : forall xs fs dR, catch xs c v = Some fs ->
  f_id dR = j -> f_def dR = None ->
  look dR fs (map xfield xs)
  = match sent_as c xs with
    | Some i => if (i =? j) && (12 =? code (f_ty dR))
                then Some (proj envW envR (TStruct c) (f_ty dR) v) else None
    | None => None
    end.
Proof.
  induction xs as [|[i c'] r IH]; intros fs dR Hc Hj Hd; [discriminate|].
  cbn [catch] in Hc. cbn [sent_as]. destruct (Nat.eqb_spec c c') as [<-|Hn].
  - assert (fs = Some v :: map (fun _ => None) r) by congruence. subst fs.
    cbn [map look xfield f_id f_ty fst snd]. rewrite look_none, Hj, Hd. reflexivity.
  - destruct (catch r c v) as [fs'|]; [|discriminate].
    assert (fs = None :: fs') by (cbn in Hc; congruence). subst fs.
    cbn [map look]. apply IH; [reflexivity|exact Hj|exact Hd].
Qed.

Lemma first_set_class (g : option Z) v c xs :
  first_set (map (fun dR => match g with
    | Some i => if (i =? f_id dR) && (12 =? code (f_ty dR))
                then Some (proj envW envR (TStruct c) (f_ty dR) v) else None
    | None => None end) (map xfield xs))
  = match g with
    | Some i => match class_for i xs with
                | Some c' => Some (proj envW envR (TStruct c) (TStruct c') v)
                | None => None
                end
    | None => None
    end.
Proof.
  destruct g as [i|].
  - induction xs as [|[j c'] r IH]; [reflexivity|].
    cbn [map first_set class_for xfield f_id f_ty fst snd code].
    change (12 =? 12) with true. rewrite andb_true_r.
    destruct (i =? j); [reflexivity|exact IH].
  - induction xs as [|x r IH]; [reflexivity|exact IH].
Qed.

Lemma sent_as_catch c v xs fs : catch xs c v = Some fs -> exists i, sent_as c xs = Some i
  /\ In i (map fst xs).
Proof.
  revert fs. induction xs as [|[i c'] r IH]; intros fs E; [discriminate|]. cbn [catch] in E.
  cbn [sent_as map fst]. destruct (Nat.eqb c c').
  - exists i. split; [reflexivity|left; reflexivity].
  - destruct (catch r c v) as [fs'|]; [|discriminate].
    destruct (IH fs' eq_refl) as (k & A & B). exists k. split; [exact A|right; exact B].
Qed.

Lemma sent_as_none c v xs : catch xs c v = None -> sent_as c xs = None.
Proof.
  induction xs as [|[i c'] r IH]; intros E; [reflexivity|]. cbn [catch] in E.
  cbn [sent_as]. destruct (Nat.eqb c c'); [discriminate|].
  apply IH. destruct (catch r c v); [discriminate|reflexivity].
Qed.
End Look.

Lemma first_none {A} (f : A -> option value) l : (forall a, In a l -> f a = None) ->
  first_set (map f l) = None.
Proof.
  induction l as [|a r IH]; intros Hf; [reflexivity|]. cbn [map first_set].
  rewrite (Hf a (or_introl eq_refl)). apply IH. intros b I. apply Hf. right. exact I.
Qed.

Section Reply.
Variables envC envS : schema.
Variables mc sm : method.
Hypothesis Hc : nth_error envC (m_result mc) = Some (result_fields mc).
Hypothesis Hs : nth_error envS (m_result sm) = Some (result_fields sm).
Hypothesis N1 : ~ In 0 (map fst (m_xs mc)).
Hypothesis N2 : ~ In 0 (map fst (m_xs sm)).

Notation pj v := (proj envS envC (TStruct (m_result sm)) (TStruct (m_result mc)) v).

Lemma xfield_id a : In a (map xfield (m_xs mc)) -> f_id a <> 0 /\ f_def a = None.
Proof.
  intros I. apply in_map_iff in I as (x & <- & I). split; [|reflexivity].
  cbn. intros E. apply N1. rewrite <- E. apply in_map. exact I.
Qed.

Lemma seen_success v : result_of mc (pj (success_result sm v)) = seen envC envS mc sm (HReturn v).
Proof.
  unfold success_result, no_xs. rewrite (proj_struct _ _ _ _ _ _ _ _ Hs Hc).
  unfold result_of, seen, result_fields, missing. cbn [attrs].
  destruct (m_ret mc) as [tc|]; cbn [app map].
  - destruct (m_ret sm) as [ts|]; cbn [app].
    + destruct v as [x|]; cbn [look f_id f_ty f_def tl].
      * change (0 =? 0) with true. cbn [andb]. destruct (code ts =? code tc) eqn:Ec; [reflexivity|].
        rewrite look_none. cbn [f_def tl]. rewrite first_none; [reflexivity|].
        intros a I. destruct (xfield_id a I) as [A B].
        replace (0 =? f_id a) with false by lia. cbn [andb]. rewrite look_none. exact B.
      * rewrite look_none. cbn [f_def tl]. rewrite first_none; [reflexivity|].
        intros a I. destruct (xfield_id a I) as [A B]. rewrite look_none. exact B.
    + rewrite look_none. cbn [f_def tl]. rewrite first_none; [reflexivity|].
      intros a I. destruct (xfield_id a I) as [A B]. rewrite look_none. exact B.
  - rewrite first_none; [reflexivity|]. intros a I. destruct (xfield_id a I) as [A B].
    destruct (m_ret sm) as [ts|]; cbn [app].
    + destruct v as [x|]; cbn [look f_id].
      * replace (0 =? f_id a) with false by lia. cbn [andb]. rewrite look_none. exact B.
      * rewrite look_none. exact B.
    + rewrite look_none. exact B.
Qed.

Lemma seen_exn c fs xs : catch (m_xs sm) c (VStruct c fs) = Some xs ->
  result_of mc (pj (exn_result sm xs)) = seen envC envS mc sm (HRaise (VStruct c fs)).
Proof.
  intros Ec. assert (Hdec : declared sm (VStruct c fs) = true) by (apply catch_declared; eauto).
  destruct (sent_as_catch _ _ _ _ Ec) as (i & Ei & Ii).
  assert (Ni : i <> 0) by (intros ->; contradiction).
  unfold exn_result. rewrite (proj_struct _ _ _ _ _ _ _ _ Hs Hc).
  unfold result_of, seen, result_fields, missing. cbn [attrs class_of]. rewrite Ei, Hdec.
  assert (Look : forall d, f_def d = None ->
     look envS envC d (match m_ret sm with Some _ => None :: xs | None => xs end)
       (match m_ret sm with Some t => [mkfield 0 t false None] | None => [] end ++ map xfield (m_xs sm))
     = if (i =? f_id d) && (12 =? code (f_ty d))
       then Some (proj envS envC (TStruct c) (f_ty d) (VStruct c fs)) else None).
  { intros d Hd. pose proof (look_catch envS envC (f_id d) c (VStruct c fs) (m_xs sm) xs d Ec eq_refl Hd) as E.
    rewrite Ei in E. destruct (m_ret sm); exact E. }
  assert (X : first_set (map (fun dR => look envS envC dR
       (match m_ret sm with Some _ => None :: xs | None => xs end)
       (match m_ret sm with Some t => [mkfield 0 t false None] | None => [] end ++ map xfield (m_xs sm)))
       (map xfield (m_xs mc)))
     = match class_for i (m_xs mc) with
       | Some c' => Some (proj envS envC (TStruct c) (TStruct c') (VStruct c fs))
       | None => None
       end).
  { rewrite <- (first_set_class envS envC (Some i)). f_equal. apply map_ext_in.
    intros a I. apply Look. apply (xfield_id a I). }
  destruct (m_ret mc) as [tc|]; cbn [app map].
  - rewrite Look by reflexivity. cbn [f_id]. replace (i =? 0) with false by lia. cbn [andb tl].
    rewrite X. destruct (class_for i (m_xs mc)); reflexivity.
  - rewrite X. destruct (class_for i (m_xs mc)); reflexivity.
Qed.
End Reply.

(** * Whole calls *)

Section Run.
Context {X : Type} {P : proto X} {SL CL : Z} (L : mlaws P SL CL).
Variables envC envS : schema.
Hypothesis HokC : schema_ok envC.
Hypothesis HokS : schema_ok envS.
Hypothesis HclS : schema_closed envS = true.
Variables RA RR : nat -> nat -> bool.
Hypothesis HRA : compat_env envC envS RA.
Hypothesis HRR : compat_env envS envC RR.
Context {H : Type}.
Variable handler : list Z -> list (option value) -> H -> hres * H.
Variable ms : list method.
Hypothesis Hms : service_ok envS SL ms.
Hypothesis HSL : 14 <= SL.

Notation msg := (message L).

Section One.
Variables (mc sm : method) (args : list (option value)) (seqid : Z).
Hypothesis Hq : seq_ok seqid.
Hypothesis HR : RA (m_args mc) (m_args sm) = true.
Hypothesis Hwf : wfd (ml_dok L) envC SL CL (TStruct (m_args mc)) (VStruct (m_args mc) args) = true.
Hypothesis Hd : (sdepth (VStruct (m_args mc) args) <= 64)%nat.
Hypothesis Hdr : drop_ok envC envS (ml_skbin L) SKIP_DEPTH (TStruct (m_args mc))
  (TStruct (m_args sm)) (VStruct (m_args mc) args) = true.
Variables (h h' : H) (r : hres).
Hypothesis Hr : handler (m_name sm) (vreceived envC envS mc sm args) h = (r, h').

Lemma vprocess_start tail io oi xi xo i sent F oo :
  ml_rB L xi i ((ml_body L envC (m_args mc) (VStruct (m_args mc) args) ++ ml_end L) ++ tail) ->
  (length (ml_body L envC (m_args mc) (VStruct (m_args mc) args)) <= F)%nat ->
  exists x', process_function P envS handler F sm seqid
    (mkss (mkst xi i io 0) (mkst xo oi oo 0) sent h)
  = match r with
    | HTransport t => raise (ETransport t)
    | _ => if m_oneway sm then ret tt
           else match reply_for envS sm r with
                | Some (mtype, e, n, v) => reply P (m_name sm) mtype seqid e n v
                | None => ret tt
                end
    end (mkss (mkst x' tail io 0) (mkst xo oi oo 0) sent h')
  /\ ml_idle L x'.
Proof.
  intros Hin HF. rewrite <- app_assoc in Hin.
  destruct (mr_body L envC envS RA (m_args mc) (m_args sm) (VStruct (m_args mc) args)
    (ml_end L ++ tail) xi i io F Hin HokC HokS HRA HR Hwf Hd Hdr HF) as (x2 & i2 & E2 & H2).
  destruct (mr_end L tail x2 i2 io 0 H2) as (x3 & E3 & H3).
  exists x3. split; [|exact H3].
  unfold process_function, bind, on_in. cbn [s_in s_out s_sent s_h]. rewrite E2.
  cbn [s_in s_out s_sent s_h]. rewrite E3.
  unfold call_handler. cbn [s_in s_out s_sent s_h].
  unfold vreceived in Hr. rewrite Hr. reflexivity.
Qed.
End One.

Lemma body_length name type seqid e n v :
  (length (ml_body L e n v ++ ml_end L) <= length (msg name type seqid e n v))%nat.
Proof. unfold message. rewrite !app_length. lia. Qed.

(** The client's side of a reply. *)
Lemma vrecv m name seqid n v tail x o sent F : ml_idle L x ->
  name_ok SL name -> seq_ok seqid -> RR n (m_result m) = true ->
  wfd (ml_dok L) envS SL CL (TStruct n) v = true -> (sdepth v <= 64)%nat ->
  drop_ok envS envC (ml_skbin L) SKIP_DEPTH (TStruct n) (TStruct (m_result m)) v = true ->
  (length (ml_body L envS n v) <= F)%nat ->
  exists x', recv P envC F m (mkcs (mkst x (msg name REPLY seqid envS n v ++ tail) o 0) sent)
    = (Ok (result_of m (proj envS envC (TStruct n) (TStruct (m_result m)) v)),
       mkcs (mkst x' tail o 0) sent)
    /\ ml_idle L x'.
Proof.
  intros Hx Hn Hq HR Hwf Hd Hdr HF. unfold recv.
  destruct (mr_begin L name REPLY seqid (ml_body L envS n v ++ ml_end L ++ tail) x o 0
     Hx Hn ltac:(unfold mtype_ok, REPLY; lia) Hq (mt_body L _ _ _ _)) as (x1 & i1 & E1 & H1).
  destruct (mr_body L envS envC RR n (m_result m) v (ml_end L ++ tail) x1 i1 o F H1 HokS HokC
     HRR HR Hwf Hd Hdr HF) as (x2 & i2 & E2 & H2).
  destruct (mr_end L tail x2 i2 o 0 H2) as (x3 & E3 & H3).
  exists x3. split; [|exact H3].
  unfold message. rewrite <- !app_assoc. unfold bind, on_cl, ret. cbn [cl cl_sent].
  rewrite E1. cbn [cl cl_sent]. change (REPLY =? EXCEPTION) with false. cbv iota.
  cbn [cl cl_sent]. rewrite E2. cbn [cl cl_sent]. rewrite E3. reflexivity.
Qed.

(** What the client makes of a reply. *)
Lemma seen_app mc sm r : reply_type sm r = EXCEPTION -> (forall t, r <> HTransport t) ->
  seen envC envS mc sm r = expected envS sm r.
Proof.
  intros E Ht. unfold reply_type in E. unfold seen, expected.
  destruct r as [v|v|t ms'|t|]; try discriminate; try reflexivity.
  destruct (declared sm v); [discriminate|].
  destruct (sent_as (class_of v) (m_xs sm)); reflexivity.
Qed.

Lemma seen_reply mc sm r n v : nth_error envC (m_result mc) = Some (result_fields mc) ->
  method_ok envS sm -> ~ In 0 (map fst (m_xs mc)) -> ~ In 0 (map fst (m_xs sm)) ->
  reply_for envS sm r = Some (REPLY, envS, n, v) ->
  n = m_result sm ->
  result_of mc (proj envS envC (TStruct n) (TStruct (m_result mc)) v) = seen envC envS mc sm r.
Proof.
  intros Hc Hs N1 N2 E ->. unfold reply_for in E.
  destruct r as [x|x|t m0|t|]; try discriminate.
  - assert (v = success_result sm x) by congruence. subst v. apply seen_success; assumption.
  - destruct x as [| | | | | | | | |c fs]; try discriminate.
    destruct (catch (m_xs sm) c (VStruct c fs)) as [xs|] eqn:Ec; [|discriminate].
    assert (v = exn_result sm xs) by congruence. subst v. apply seen_exn; assumption.
Qed.

Lemma vcall_ok mc sm args h h' r y : lookup (m_name mc) ms = Some sm ->
  name_ok SL (m_name mc) ->
  wfd (ml_dok L) envC SL CL (TStruct (m_args mc)) (VStruct (m_args mc) args) = true ->
  (sdepth (VStruct (m_args mc) args) <= 64)%nat ->
  drop_ok envC envS (ml_skbin L) SKIP_DEPTH (TStruct (m_args mc)) (TStruct (m_args sm))
    (VStruct (m_args mc) args) = true ->
  version_of envC RA RR mc sm ->
  handler (m_name sm) (vreceived envC envS mc sm args) h = (r, h') ->
  (m_oneway mc = false -> handler_okd (ml_dok L) envS SL CL sm r
     /\ answer_known envC envS (ml_skbin L) mc sm r) ->
  (forall t, r <> HTransport t) ->
  quiet L h y ->
  exists y', vcall P envC envS handler ms mc args y
    = (Ok (if m_oneway mc then CReturn None else seen envC envS mc sm r), y')
    /\ quiet L h' y'.
Proof.
  intros Hl Hn Hwf Hd Hdr (Ho & HRa & HRr) Hr Hh Htr (xc & xi & xo & -> & Hxc & Hxi & Hxo).
  destruct (lookup_name _ _ _ Hl) as [En Hi].
  destruct Hms as [Hnd Hall]. destruct (Hall sm Hi) as [_ Hm].
  unfold vcall, at_client.
  destruct (send_ok L envC HokC mc args xc [] [] [] Hxc Hn Hwf Hd) as (xc1 & Es & Hxc1).
  unfold bind at 1. cbn [fst snd]. rewrite Es. cbn [app].
  set (ty := if m_oneway mc then ONEWAY else CALL).
  assert (Ht : mtype_ok ty)
    by (unfold ty, mtype_ok, ONEWAY, CALL; destruct (m_oneway mc); lia).
  set (rq := msg (m_name mc) ty 0 envC (m_args mc) (VStruct (m_args mc) args)).
  unfold bind at 1. cbv beta.
  unfold deliver_requests, feed. cbn [cl cl_sent s_in s_out s_sent s_h px inp out depth concat].
  rewrite app_nil_r. cbn [app].
  unfold serve_one. cbn [s_in inp].
  destruct (process_header L envS handler ms (length rq) (m_name mc) ty 0 envC (m_args mc)
    (VStruct (m_args mc) args) [] xi [] (mkst xo [] [] 0) [] h Hxi Hn Ht eq_refl)
    as (x1 & i1 & E1 & H1).
  pose proof (body_length (m_name mc) ty 0 envC (m_args mc) (VStruct (m_args mc) args)) as Hlen.
  fold rq in Hlen, E1. rewrite app_length in Hlen. rewrite app_nil_r in E1. rewrite E1.
  unfold dispatch. rewrite Hl.
  destruct (vprocess_start mc sm args 0 HRa Hwf Hd Hdr h h' r Hr [] [] [] x1 xo i1 []
    (length rq) [] H1 ltac:(lia)) as (x2 & E2 & H2).
  rewrite E2. clear E1 E2. destruct (m_oneway mc) eqn:Em.
  - rewrite <- Ho.
    replace (match r with
             | HTransport t => raise (ETransport t)
             | _ => ret tt
             end) with (@ret (sstate X H) unit tt)
      by (destruct r; try reflexivity; exfalso; eapply Htr; reflexivity).
    unfold ret at 1. cbn [snd]. unfold deliver_replies, feed.
    cbn [cl cl_sent s_in s_out s_sent s_h px inp out depth concat app].
    unfold ret. eexists. split; [reflexivity|].
    exists xc1, x2, xo. repeat split; assumption.
  - rewrite <- Ho. destruct (Hh eq_refl) as [Hh1 Hk1]. destruct (HRr eq_refl) as (HR & Hc & N1 & N2).
    assert (Hmok : method_ok envS sm) by (apply Hm; congruence).
    destruct (reply_for_ok (ml_dok L) envS SL CL sm Hmok HSL HokS HclS r Hh1 Htr)
      as (e & n & v & Er & He & Hcl & Hwf' & Hd' & Hmt & Hk).
    rewrite Er.
    replace (match r with
             | HTransport t => raise (ETransport t)
             | _ => reply P (m_name sm) (reply_type sm r) 0 e n v
             end) with (reply (H:=H) P (m_name sm) (reply_type sm r) 0 e n v)
      by (destruct r; try reflexivity; exfalso; eapply Htr; reflexivity).
    rewrite En.
    destruct (reply_ok L (m_name mc) (reply_type sm r) 0 e n v (mkst x2 [] [] 0) xo [] []
      [] h' Hxo Hn Hmt eq_refl He Hwf' Hd') as (x3 & E3 & H3).
    rewrite E3. cbn [snd app]. unfold deliver_replies, feed.
    cbn [cl cl_sent s_in s_out s_sent s_h px inp out depth concat app fst snd].
    rewrite app_nil_r.
    pose proof (body_length (m_name mc) (reply_type sm r) 0 e n v) as Hlen'.
    rewrite app_length in Hlen'.
    destruct (reply_type sm r =? EXCEPTION) eqn:Ex.
    + destruct Hk as (He' & Hn' & Hex).
      destruct (recv_reply L envC mc (m_name mc) 0 e n v (reply_type sm r) [] xc1 [] []
        (length (msg (m_name mc) (reply_type sm r) 0 e n v)) Hxc1 Hn Hmt eq_refl He Hcl Hwf' Hd'
        ltac:(lia)) as (xc2 & Erc & Hxc2); [rewrite Ex; tauto|].
      rewrite app_nil_r, Ex in Erc. rewrite Erc. eexists. split.
      * rewrite (seen_app mc sm r) by (assumption || lia). rewrite Hex. reflexivity.
      * exists xc2, x2, x3. repeat split; assumption.
    + destruct Hk as (-> & -> & _).
      assert (ErR : reply_type sm r = REPLY).
      { unfold reply_type in *. destruct r; try discriminate; try reflexivity.
        destruct (declared sm v0); [reflexivity|discriminate]. }
      rewrite ErR in *.
      destruct (vrecv mc (m_name mc) 0 (m_result sm) v [] xc1 [] []
        (length (msg (m_name mc) REPLY 0 envS (m_result sm) v)) Hxc1 Hn eq_refl HR Hwf' Hd'
        (Hk1 _ _ Er) ltac:(lia)) as (xc2 & Erc & Hxc2).
      rewrite app_nil_r in Erc. rewrite Erc. eexists. split.
      * rewrite (seen_reply mc sm r _ v Hc Hmok N1 N2 Er eq_refl). reflexivity.
      * exists xc2, x2, x3. repeat split; assumption.
Qed.

Lemma vcall_unknown mc args h y : lookup (m_name mc) ms = None ->
  m_oneway mc = false -> name_ok SL (m_name mc) ->
  name_ok SL (lit "Unknown function " ++ m_name mc) ->
  wfd (ml_dok L) envC SL CL (TStruct (m_args mc)) (VStruct (m_args mc) args) = true ->
  (sdepth (VStruct (m_args mc) args) <= 64)%nat ->
  (vdepth (VStruct (m_args mc) args) <= 64)%nat ->
  all_bin (ml_skbin L) (VStruct (m_args mc) args) = true ->
  quiet L h y ->
  exists y', vcall P envC envS handler ms mc args y = (Ok (unknown mc), y') /\ quiet L h y'.
Proof.
  intros Hl Ho Hn Hu Hwf Hd Hv Hb (xc & xi & xo & -> & Hxc & Hxi & Hxo).
  unfold vcall, at_client.
  destruct (send_ok L envC HokC mc args xc [] [] [] Hxc Hn Hwf Hd) as (xc1 & Es & Hxc1).
  unfold bind at 1. cbn [fst snd]. rewrite Es, Ho. cbn [app].
  set (rq := msg (m_name mc) CALL 0 envC (m_args mc) (VStruct (m_args mc) args)).
  unfold bind at 1. cbv beta.
  unfold deliver_requests, feed. cbn [cl cl_sent s_in s_out s_sent s_h px inp out depth concat].
  rewrite app_nil_r. cbn [app].
  unfold serve_one. cbn [s_in inp].
  destruct (process_request_unknown L envS handler ms (m_name mc) CALL 0 envC (m_args mc) args
    [] [] [] [] xi xo [] h (length rq) Hxi Hxo Hl Hn ltac:(unfold mtype_ok, CALL; lia) eq_refl Hu
    HokC Hwf Hv Hb (Nat.le_refl _)) as (s' & Ep & (xi' & xo' & -> & Hxi' & Hxo')).
  fold rq in Ep. rewrite app_nil_r in Ep. rewrite Ep. cbn [snd app].
  unfold deliver_replies, feed.
  cbn [cl cl_sent s_in s_out s_sent s_h px inp out depth concat app fst snd].
  rewrite app_nil_r.
  set (xv := app_exn TA_UNKNOWN_METHOD (Some (lit "Unknown function " ++ m_name mc))).
  pose proof (body_length (m_name mc) EXCEPTION 0 app_env O xv) as Hlen.
  rewrite app_length in Hlen.
  destruct (recv_reply L envC mc (m_name mc) 0 app_env O xv EXCEPTION [] xc1 [] []
    (length (msg (m_name mc) EXCEPTION 0 app_env O xv)) Hxc1 Hn ltac:(unfold mtype_ok, EXCEPTION; lia)
    eq_refl app_env_ok app_env_closed (app_exn_wf (ml_dok L) SL CL TA_UNKNOWN_METHOD (Some (lit "Unknown function " ++ m_name mc)) eq_refl Hu) ltac:(cbn; lia) ltac:(lia))
    as (xc2 & Erc & Hxc2); [split; reflexivity|].
  rewrite app_nil_r in Erc. rewrite Erc. eexists. split.
  - change (EXCEPTION =? EXCEPTION) with true. cbv iota. unfold xv. rewrite app_exn_wd. reflexivity.
  - exists xc2, xi', xo'. repeat split; assumption.
Qed.

Theorem vcalls_ok l : forall h y,
  vhistoryd (ml_dok L) envC envS SL CL (ml_skbin L) RA RR handler ms l h -> quiet L h y ->
  exists y', vcalls P envC envS handler ms l y = (fst (vreference envC envS handler ms l h), y')
    /\ quiet L (snd (vreference envC envS handler ms l h)) y'.
Proof.
  induction l as [|[mc args] l IH]; intros h y Hg Hy.
  - exists y. split; [reflexivity|exact Hy].
  - cbn [vcalls vreference vhistoryd] in *. destruct Hg as (Hn & Hwf & Hd & Hg).
    destruct (lookup (m_name mc) ms) as [sm|] eqn:Hl.
    + destruct Hg as (Hv & Hdr & Hh & Htr & Hg).
      destruct (handler (m_name sm) (vreceived envC envS mc sm args) h) as [r h'] eqn:Hr.
      cbn [fst snd] in *.
      destruct (vcall_ok mc sm args h h' r y Hl Hn Hwf Hd Hdr Hv Hr Hh Htr Hy) as (y1 & E1 & Hy1).
      rewrite E1. destruct (IH h' y1 Hg Hy1) as (y2 & E2 & Hy2). rewrite E2.
      destruct (vreference envC envS handler ms l h') as [os h'']. exists y2.
      split; [reflexivity|exact Hy2].
    + destruct Hg as (Ho & Hu & Hv & Hb & Hg).
      destruct (vcall_unknown mc args h y Hl Ho Hn Hu Hwf Hd Hv Hb Hy) as (y1 & E1 & Hy1).
      rewrite E1. destruct (IH h y1 Hg Hy1) as (y2 & E2 & Hy2). rewrite E2.
      destruct (vreference envC envS handler ms l h) as [os h'']. exists y2.
      split; [reflexivity|exact Hy2].
Qed.
End Run.
