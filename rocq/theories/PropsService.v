(** C74: names in generated services. *)
From Coq Require Import String Ascii.
From Coq Require Import ZArith List Bool Lia.
From Coq Require Import ZifyBool ZifyNat ZifyN.
From Verif Require Import Base Proto GenClass GenClassFacts Service SpecService ServiceFacts.
From Verif Require Rpc.
Import ListNotations.
Open Scope string_scope.
Open Scope list_scope.

(** * Calling a function *)

(** What is sent in place of the argument for the parameter [n]. *)
Definition arrives {V} (fl : flavour) (oneway : bool) (n : string) (v : V) : lv V :=
  if String.eqb n "args" then LArgs
  else match fl with
       | Sync => LArg v
       | Twisted => if String.eqb n "oprot" then LProt else if String.eqb n "seqid" then LSeqid else LArg v
       | Tornado => if String.eqb n "oprot" then LProt
                    else if String.eqb n "future" && negb oneway then LFuture else LArg v
       end.

Section Calls.
Context {T V R : Type}.
Variable types : list string.
Variable begin_message : string -> bool -> SM T unit.
Variable send_args : hcls -> list (string * lv V) -> SM T unit.
Variable receive : option hcls -> fn -> list (lv V) -> SM T R.
Variable other : meth -> list (lv V) -> SM T R.
Variable nothing : R.
Variable discard : R -> R.

Let run fl ch := call_attr fl ch types begin_message send_args receive other nothing discard.

Lemma bind_ext {A B} (m : SM T A) (k k' : A -> SM T B) s :
  (forall a s', k a s' = k' a s') -> bind m k s = bind m k' s.
Proof. intros H. unfold bind. destruct (m s) as [[a| |] s']; auto. Qed.
Lemma bind_assoc {A B C} (m : SM T A) (k : A -> SM T B) (k' : B -> SM T C) s :
  bind (bind m k) k' s = bind m (fun a => bind (k a) k') s.
Proof. unfold bind. destruct (m s) as [[a| |] s']; auto. Qed.

Lemma params_ok f (vs : list (lv V)) : length vs = length (fn_params f) ->
  params f vs = Some (combine (map esc (fn_params f)) vs ++ [("self", LSelf)]).
Proof. intros H. unfold params. rewrite H, Nat.eqb_refl. reflexivity. Qed.

Lemma nth_error_ext {A} : forall (a b : list A), (forall i, nth_error a i = nth_error b i) -> a = b.
Proof.
  induction a as [|x a IH]; intros [|y b] H; [reflexivity|specialize (H O); discriminate|specialize (H O); discriminate|].
  pose proof (H O) as H0. cbn [nth_error] in H0. injection H0 as ->. f_equal. apply IH. intros i. apply (H (S i)).
Qed.

Lemma map_pair {A B C} (a : A -> B) (g : A -> C) l : map (fun x => (a x, g x)) l = combine (map a l) (map g l).
Proof. induction l as [|x l IH]; [reflexivity|]. cbn [map combine]. rewrite IH. reflexivity. Qed.

(** The arguments, from the locals. *)
Lemma locals_args f (vs : list (lv V)) (extra : list (string * lv V)) :
  NoDup (map esc (fn_params f)) -> length vs = length (fn_params f) ->
  map (fun p => local (extra ++ combine (map esc (fn_params f)) vs ++ [("self", LSelf)]) (esc p)) (fn_params f)
  = map (fun pv => match assoc (esc (fst pv)) extra with Some w => w | None => snd pv end)
        (combine (fn_params f) vs).
Proof.
  intros N Hl. apply nth_error_ext. intros i. rewrite !nth_error_map.
  destruct (nth_error (fn_params f) i) as [p|] eqn:Hp.
  - assert (Hi : (i < length vs)%nat) by (rewrite Hl; apply nth_error_Some; congruence).
    destruct (nth_error vs i) as [v|] eqn:Hv; [|apply nth_error_None in Hv; lia].
    replace (nth_error (combine (fn_params f) vs) i) with (Some (p, v)).
    + cbn [option_map fst snd]. f_equal. unfold local. rewrite assoc_app.
      destruct (assoc (esc p) extra) as [w|]; [reflexivity|].
      rewrite (assoc_combine (map esc (fn_params f)) vs i (esc p) v _ N); auto.
      rewrite nth_error_map, Hp. reflexivity.
    + symmetry. revert vs i Hl Hi Hp Hv. clear. induction (fn_params f) as [|q l IH]; intros [|w vs] [|i] Hl Hi Hp Hv;
        try discriminate; cbn [nth_error combine] in *; [congruence|]. apply IH; cbn [length] in *; auto; lia.
  - cbn [option_map]. replace (nth_error (combine (fn_params f) vs) i) with (@None (string * lv V)); [reflexivity|].
    symmetry. apply nth_error_None. apply nth_error_None in Hp. rewrite combine_length. lia.
Qed.

Lemma not_hidden fl f g : (forall p, In p (fn_params f) -> ~ In (esc p) (client_globals fl f)) ->
  In g (client_globals fl f) -> hides f g = false.
Proof.
  intros H Hg. unfold hides. destruct (mem g (map esc (fn_params f))) eqn:E; [|reflexivity].
  apply mem_In in E. apply in_map_iff in E as (p & <- & Hp). exfalso. exact (H p Hp Hg).
Qed.
Lemma call_not_hidden fl f : (forall p, In p (fn_params f) -> ~ In (esc p) (client_globals fl f)) ->
  call_hidden fl f = false.
Proof.
  intros H. unfold call_hidden. destruct fl; [reflexivity| |].
  - apply (not_hidden Twisted f _ H). right. right. left. reflexivity.
  - destruct (fn_oneway f) eqn:E; [reflexivity|]. apply (not_hidden Tornado f _ H).
    unfold client_globals. rewrite E. right. right. left. reflexivity.
Qed.

(** What a call sends, in every kind of client, and what it waits for. *)
Theorem C74_call_exact : forall fl ch k fs f vs fuel st,
  accepted ch -> plain_services fl ch -> nth_error ch k = Some fs -> In f fs ->
  fn_compiles f = true -> length vs = length (fn_params f) ->
  (forall p, In p (fn_params f) -> ~ In (esc p) (client_globals fl f)) ->
  run fl ch (S (S fuel)) (fn_name f) (map LArg vs) st
  = (begin_message (fn_name f) (fn_oneway f) ;;;
     send_args (HArgs f)
       (map (fun pv => (esc (fst pv), arrives fl (fn_oneway f) (esc (fst pv)) (snd pv)))
            (combine (fn_params f) vs)) ;;;
     match fl with
     | Sync => if fn_oneway f then ret nothing
               else r <- receive (Some (HResult f)) f [] ;; ret (if fn_void f then discard r else r)
     | _ => ret nothing
     end) st.
Proof.
  intros fl ch k fs f vs fuel st Ha Hp Hk Hf Hc Hl Hg.
  assert (Pl : at_place ch k f) by (exists fs; auto).
  pose proof (place_in ch k f Pl) as In_f. pose proof Hp as (P1 & P2 & P3).
  pose proof (P1 _ In_f) as Hkw. pose proof (esc_id _ Hkw) as He.
  unfold fn_compiles in Hc. apply andb_prop in Hc as [Hc _]. apply distinct_NoDup in Hc.
  inversion Hc as [|? ? Hself Hnd]; subst.
  unfold run. cbn [call_attr].
  replace (mem (fn_name f) (instance_attrs fl)) with false.
  2: { symmetry. destruct (mem (fn_name f) (instance_attrs fl)) eqn:E; [|reflexivity]. apply mem_In in E.
       exfalso. apply (P3 _ In_f). right. right. assumption. }
  rewrite (plain_found fl ch k f (fn_name f) (MCall k f) Ha Hp Pl).
  2: { left. rewrite He. reflexivity. }
  rewrite params_ok by (rewrite map_length; assumption).
  rewrite (call_not_hidden fl f Hg).
  rewrite (not_instance fl "send_") by (cbn; tauto).
  rewrite (plain_found fl ch k f ("send_" ++ fn_name f) (MSend k f) Ha Hp Pl).
  2: { unfold fn_defs. rewrite He. apply in_or_app. right. apply in_or_app. right. left. reflexivity. }
  unfold send_body. rewrite params_ok by (rewrite map_length; reflexivity). rewrite He.
  rewrite (not_hidden fl f "TMessageType" Hg) by (left; reflexivity).
  rewrite (not_hidden fl f (fn_name f ++ "_args") Hg) by (right; left; reflexivity).
  unfold module_of. rewrite (nth_error_nth ch k [] Hk).
  rewrite (global_args types fs f (accepted_module ch k fs Ha Hk) Hf).
  rewrite !bind_assoc. apply bind_ext. intros _ s1. rewrite !bind_assoc.
  match goal with
  | |- bind (send_args _ ?a) _ _ = bind (send_args _ ?b) _ _ => assert (E : a = b)
  end.
  { clear - Hnd Hl Hself.
    assert (Q : forall (vs' : list (lv V)) extra, length vs' = length (fn_params f) ->
      map (fun p => (esc p, local (extra ++ combine (map esc (fn_params f)) vs' ++ [("self", LSelf)]) (esc p))) (fn_params f)
      = map (fun pv => (esc (fst pv), match assoc (esc (fst pv)) extra with Some w => w | None => snd pv end))
            (combine (fn_params f) vs')).
    { intros vs' extra Hl'.
      pose proof (locals_args f vs' extra Hnd Hl') as L.
      transitivity (combine (map esc (fn_params f))
        (map (fun p => local (extra ++ combine (map esc (fn_params f)) vs' ++ [("self", LSelf)]) (esc p)) (fn_params f))).
      - apply map_pair.
      - rewrite L. clear - Hl'. revert vs' Hl'. induction (fn_params f) as [|q l IH]; intros [|w vs'] Hl'; try discriminate; [reflexivity|].
        cbn [map combine fst snd]. rewrite IH by (cbn [length] in Hl'; lia). reflexivity. }
    assert (W : forall e1 : list (string * lv V),
      map (fun p => local (e1 ++ combine (map esc (fn_params f)) (map LArg vs) ++ [("self", LSelf)]) (esc p)) (fn_params f)
      = map (fun pv => match assoc (esc (fst pv)) e1 with Some w => w | None => LArg (snd pv) end) (combine (fn_params f) vs)).
    { intros e1. rewrite locals_args; [|assumption|rewrite map_length; assumption].
      clear - Hl. revert vs Hl. induction (fn_params f) as [|q l IH]; intros [|w vs] Hl; try discriminate; [reflexivity|].
      cbn [map combine fst snd]. rewrite IH by (cbn [length] in Hl; lia). reflexivity. }
    assert (X : forall (e2 : list (string * lv V)) (h : string * V -> lv V),
      map (fun pv => (esc (fst pv), match assoc (esc (fst pv)) e2 with Some w => w | None => snd pv end))
          (combine (fn_params f) (map h (combine (fn_params f) vs)))
      = map (fun pv => (esc (fst pv), match assoc (esc (fst pv)) e2 with Some w => w | None => h pv end))
          (combine (fn_params f) vs)).
    { intros e2 h. clear - Hl. revert vs Hl. induction (fn_params f) as [|q l IH]; intros [|w vs] Hl; try discriminate; [reflexivity|].
      cbn [map combine fst snd]. rewrite IH by (cbn [length] in Hl; lia). reflexivity. }
    unfold call_locals. destruct fl.
    - pose proof (W []) as W0. cbn [app] in W0. rewrite W0.
      match goal with |- map (fun p => (_, local (("args", LArgs) :: combine _ ?a ++ _) _)) _ = _ =>
        pose proof (Q a [("args", LArgs)]) as Q0 end. cbn [app] in Q0. rewrite Q0.
      2: { rewrite map_length, combine_length. lia. }
      rewrite X. apply map_ext. intros [q v]. cbn [fst snd assoc]. unfold arrives.
      destruct (String.eqb (esc q) "args"); reflexivity.
    - pose proof (W [("seqid", LSeqid)]) as W0. cbn [app] in W0. rewrite W0.
      match goal with |- map (fun p => (_, local (("args", LArgs) :: ("oprot", LProt) :: combine _ ?a ++ _) _)) _ = _ =>
        pose proof (Q a [("args", LArgs); ("oprot", LProt)]) as Q0 end. cbn [app] in Q0. rewrite Q0.
      2: { rewrite map_length, combine_length. lia. }
      rewrite X. apply map_ext. intros [q v]. cbn [fst snd assoc]. unfold arrives.
      destruct (String.eqb (esc q) "args"); [reflexivity|].
      destruct (String.eqb (esc q) "oprot"); [reflexivity|]. destruct (String.eqb (esc q) "seqid"); reflexivity.
    - destruct (fn_oneway f).
      + pose proof (W []) as W0. cbn [app] in W0. rewrite W0.
      match goal with |- map (fun p => (_, local (("args", LArgs) :: ("oprot", LProt) :: combine _ ?a ++ _) _)) _ = _ =>
        pose proof (Q a [("args", LArgs); ("oprot", LProt)]) as Q0 end. cbn [app] in Q0. rewrite Q0.
        2: { rewrite map_length, combine_length. lia. }
        rewrite X. apply map_ext. intros [q v]. cbn [fst snd assoc]. unfold arrives.
        destruct (String.eqb (esc q) "args"); [reflexivity|].
        destruct (String.eqb (esc q) "oprot"); [reflexivity|]. rewrite andb_false_r. reflexivity.
      + pose proof (W [("future", LFuture)]) as W0. cbn [app] in W0. rewrite W0.
      match goal with |- map (fun p => (_, local (("args", LArgs) :: ("oprot", LProt) :: combine _ ?a ++ _) _)) _ = _ =>
        pose proof (Q a [("args", LArgs); ("oprot", LProt)]) as Q0 end. cbn [app] in Q0. rewrite Q0.
        2: { rewrite map_length, combine_length. lia. }
        rewrite X. apply map_ext. intros [q v]. cbn [fst snd assoc]. unfold arrives.
        destruct (String.eqb (esc q) "args"); [reflexivity|].
        destruct (String.eqb (esc q) "oprot"); [reflexivity|]. rewrite andb_true_r.
        destruct (String.eqb (esc q) "future"); reflexivity. }
  rewrite E. apply bind_ext. intros _ s2.
  change (bind (ret nothing) ?k s2) with (k nothing s2). cbv beta.
  destruct fl; try reflexivity. destruct (fn_oneway f) eqn:Ho; [reflexivity|].
  rewrite (not_instance Sync "recv_") by (cbn; tauto).
  rewrite (plain_found Sync ch k f ("recv_" ++ fn_name f) (MRecv k f) Ha Hp Pl).
  2: { unfold fn_defs. rewrite He, Ho. apply in_or_app. right. apply in_or_app. right. right. left. reflexivity. }
  unfold recv_body, recv_arity. cbn [length Nat.eqb]. unfold module_of. rewrite (nth_error_nth ch k [] Hk), He.
  rewrite (global_result types fs f (accepted_module ch k fs Ha Hk) Hf Ho). reflexivity.
Qed.

(** No argument is lost if no parameter is called like a local of the client. *)
Theorem C74_call : forall fl ch k fs f vs fuel st,
  accepted ch -> plain_services fl ch -> nth_error ch k = Some fs -> In f fs ->
  fn_compiles f = true -> length vs = length (fn_params f) ->
  (forall p, In p (fn_params f) -> ~ In (esc p) (captured fl (fn_oneway f) ++ client_globals fl f)) ->
  run fl ch (S (S fuel)) (fn_name f) (map LArg vs) st
  = (begin_message (fn_name f) (fn_oneway f) ;;;
     send_args (HArgs f) (combine (map esc (fn_params f)) (map LArg vs)) ;;;
     match fl with
     | Sync => if fn_oneway f then ret nothing
               else r <- receive (Some (HResult f)) f [] ;; ret (if fn_void f then discard r else r)
     | _ => ret nothing
     end) st.
Proof.
  intros fl ch k fs f vs fuel st Ha Hp Hk Hf Hc Hl Hn0.
  assert (Hg : forall p, In p (fn_params f) -> ~ In (esc p) (client_globals fl f)).
  { intros p Hq H. apply (Hn0 p Hq). apply in_or_app. right. exact H. }
  assert (Hn : forall p, In p (fn_params f) -> ~ In (esc p) (captured fl (fn_oneway f))).
  { intros p Hq H. apply (Hn0 p Hq). apply in_or_app. left. exact H. }
  clear Hn0.
  rewrite (C74_call_exact fl ch k fs f vs fuel st Ha Hp Hk Hf Hc Hl Hg).
  replace (map _ (combine (fn_params f) vs)) with (combine (map esc (fn_params f)) (map (@LArg V) vs)); [reflexivity|].
  symmetry. clear - Hl Hn. revert vs Hl. induction (fn_params f) as [|q l IH]; intros [|v vs] Hl; try discriminate; [reflexivity|].
  cbn [combine map fst snd]. rewrite IH; [|intros p Hp; apply Hn; right; assumption|cbn [length] in Hl; lia].
  f_equal. f_equal. specialize (Hn q (or_introl eq_refl)). unfold arrives, captured in *. cbn [In] in Hn.
  destruct (String.eqb_spec (esc q) "args") as [E|_]; [exfalso; apply Hn; left; congruence|].
  destruct fl; [reflexivity| |].
  - destruct (String.eqb_spec (esc q) "oprot") as [E|_]; [exfalso; apply Hn; right; left; congruence|].
    destruct (String.eqb_spec (esc q) "seqid") as [E|_]; [exfalso; apply Hn; right; right; left; congruence|reflexivity].
  - destruct (String.eqb_spec (esc q) "oprot") as [E|_]; [exfalso; apply Hn; right; left; congruence|].
    destruct (fn_oneway f); [rewrite andb_false_r; reflexivity|].
    destruct (String.eqb_spec (esc q) "future") as [E|_]; [exfalso; apply Hn; right; right; left; congruence|reflexivity].
Qed.

(** (defect) What is passed for a parameter called like a local of the client
    makes no difference to the call. *)
Theorem C74_argument_lost : forall fl ch k fs f vs vs' fuel st,
  accepted ch -> plain_services fl ch -> nth_error ch k = Some fs -> In f fs ->
  fn_compiles f = true -> length vs = length (fn_params f) -> length vs' = length (fn_params f) ->
  (forall p, In p (fn_params f) -> ~ In (esc p) (client_globals fl f)) ->
  (forall i p, nth_error (fn_params f) i = Some p -> ~ In (esc p) (captured fl (fn_oneway f)) ->
     nth_error vs i = nth_error vs' i) ->
  run fl ch (S (S fuel)) (fn_name f) (map LArg vs) st = run fl ch (S (S fuel)) (fn_name f) (map LArg vs') st.
Proof.
  intros fl ch k fs f vs vs' fuel st Ha Hp Hk Hf Hc Hl Hl' Hg Hn.
  rewrite (C74_call_exact fl ch k fs f vs fuel st Ha Hp Hk Hf Hc Hl Hg).
  rewrite (C74_call_exact fl ch k fs f vs' fuel st Ha Hp Hk Hf Hc Hl' Hg).
  replace (map _ (combine (fn_params f) vs'))
    with (map (fun pv => (esc (fst pv), arrives fl (fn_oneway f) (esc (fst pv)) (snd pv))) (combine (fn_params f) vs));
    [reflexivity|].
  clear - Hl Hl' Hn. revert vs vs' Hl Hl' Hn. induction (fn_params f) as [|q l IH]; intros [|v vs] [|v' vs'] Hl Hl' Hn;
    try discriminate; [reflexivity|].
  cbn [combine map fst snd]. rewrite (IH vs vs'); [|cbn [length] in *; lia|cbn [length] in *; lia|].
  2: { intros i p Hi. apply (Hn (S i) p Hi). }
  f_equal. f_equal. specialize (Hn O q eq_refl). cbn [nth_error] in Hn. unfold captured in Hn. unfold arrives.
  destruct (String.eqb_spec (esc q) "args") as [E|A1]; [reflexivity|].
  assert (V1 : ~ In (esc q) (captured fl (fn_oneway f)) -> v = v') by (intros HH; specialize (Hn HH); congruence).
  unfold captured in V1. cbn [In] in V1. destruct fl.
  - rewrite V1; [reflexivity|]. intros [E|[]]. congruence.
  - destruct (String.eqb_spec (esc q) "oprot") as [E|A2]; [reflexivity|].
    destruct (String.eqb_spec (esc q) "seqid") as [E|A3]; [reflexivity|].
    rewrite V1; [reflexivity|]. intros [E|[E|[E|[]]]]; congruence.
  - destruct (String.eqb_spec (esc q) "oprot") as [E|A2]; [reflexivity|].
    destruct (fn_oneway f).
    + rewrite andb_false_r. rewrite V1; [reflexivity|]. intros [E|[E|[]]]; congruence.
    + destruct (String.eqb_spec (esc q) "future") as [E|A3]; [reflexivity|].
      rewrite V1; [reflexivity|]. intros [E|[E|[E|[]]]]; congruence.
Qed.

(** (defect) A parameter called like a name of the module that the client reads:
    every call fails, in one case after the message has been begun. *)
Theorem C74_hidden_global_fails : forall fl ch k fs f p vs fuel st,
  accepted ch -> plain_services fl ch -> nth_error ch k = Some fs -> In f fs ->
  length vs = length (fn_params f) -> In p (fn_params f) -> In (esc p) (client_globals fl f) ->
  exists e,
    run fl ch (S (S fuel)) (fn_name f) (map LArg vs) st = (Raise e, st)
    \/ (esc p = (fn_name f ++ "_args")%string
        /\ run fl ch (S (S fuel)) (fn_name f) (map LArg vs) st
           = (begin_message (fn_name f) (fn_oneway f) ;;; raise e) st).
Proof.
  intros fl ch k fs f p vs fuel st Ha Hp Hk Hf Hl Hin Hg.
  assert (Pl : at_place ch k f) by (exists fs; auto).
  pose proof (place_in ch k f Pl) as In_f. pose proof Hp as (P1 & P2 & P3).
  pose proof (P1 _ In_f) as Hkw. pose proof (esc_id _ Hkw) as He.
  assert (Hh : hides f (esc p) = true) by (apply mem_In, in_map; assumption).
  unfold run. cbn [call_attr].
  replace (mem (fn_name f) (instance_attrs fl)) with false.
  2: { symmetry. destruct (mem (fn_name f) (instance_attrs fl)) eqn:E; [|reflexivity]. apply mem_In in E.
       exfalso. apply (P3 _ In_f). right. right. assumption. }
  rewrite (plain_found fl ch k f (fn_name f) (MCall k f) Ha Hp Pl).
  2: { left. rewrite He. reflexivity. }
  rewrite params_ok by (rewrite map_length; assumption).
  destruct (call_hidden fl f) eqn:Hc; [exists EAttributeError; left; reflexivity|].
  rewrite (not_instance fl "send_") by (cbn; tauto).
  rewrite (plain_found fl ch k f ("send_" ++ fn_name f) (MSend k f) Ha Hp Pl).
  2: { unfold fn_defs. rewrite He. apply in_or_app. right. apply in_or_app. right. left. reflexivity. }
  unfold send_body. rewrite params_ok by (rewrite map_length; reflexivity). rewrite He.
  destruct (hides f "TMessageType") eqn:Ht; [exists EAttributeError; left; reflexivity|].
  destruct Hg as [Hg|[Hg|Hg]].
  - rewrite <- Hg in Hh. congruence.
  - exists ETypeError. right. split; [congruence|]. rewrite <- Hg in Hh. rewrite Hh.
    unfold bind, raise. destruct (begin_message (fn_name f) (fn_oneway f) st) as [[u| |] s1]; reflexivity.
  - exfalso. unfold call_hidden in Hc. destruct fl.
    + destruct Hg.
    + destruct Hg as [Hg|[]]. rewrite Hg in Hc. congruence.
    + destruct (fn_oneway f); [destruct Hg|]. destruct Hg as [Hg|[]]. rewrite Hg, Hh in Hc. discriminate.
Qed.

(** What arrives for a function goes to the method that reads its result
    (Twisted, Tornado: [getattr(client, 'recv_' + fname)], TTwisted.py 106,
    t_py_generator.cc 1519). *)
Theorem C74_reply : forall fl ch k fs f vs fuel st,
  accepted ch -> plain_services fl ch -> nth_error ch k = Some fs -> In f fs -> fn_oneway f = false ->
  length vs = match fl with Sync => 0 | _ => 3 end%nat ->
  run fl ch (S fuel) ("recv_" ++ fn_name f)%string vs st = receive (Some (HResult f)) f vs st.
Proof.
  intros fl ch k fs f vs fuel st Ha Hp Hk Hf Ho Hl.
  assert (Pl : at_place ch k f) by (exists fs; auto).
  pose proof (place_in ch k f Pl) as In_f. pose proof Hp as (P1 & _).
  pose proof (esc_id _ (P1 _ In_f)) as He.
  unfold run. cbn [call_attr]. rewrite (not_instance fl "recv_") by (cbn; tauto).
  rewrite (plain_found fl ch k f ("recv_" ++ fn_name f) (MRecv k f) Ha Hp Pl).
  2: { unfold fn_defs. rewrite He, Ho. apply in_or_app. right. apply in_or_app. right. right. left. reflexivity. }
  unfold recv_body, recv_arity. rewrite Hl, Nat.eqb_refl. unfold module_of. rewrite (nth_error_nth ch k [] Hk), He.
  rewrite (global_result types fs f (accepted_module ch k fs Ha Hk) Hf Ho). reflexivity.
Qed.

(** (defect) A function called like a word of Python cannot be called: nothing is
    sent. *)
Theorem C74_keyword_call_fails : forall fl ch k fs f vs fuel st,
  accepted ch -> apart ch -> nth_error ch k = Some fs -> In f fs -> In (fn_name f) python_keywords_ ->
  ~ In ("send_" ++ fn_name f)%string (functions ch) ->
  run fl ch (S (S fuel)) (esc (fn_name f)) (map LArg vs) st
  = (Raise (if (length vs =? length (fn_params f))%nat then EAttributeError else ETypeError), st).
Proof.
  intros fl ch k fs f vs fuel st Ha Hap Hk Hf Hkw Hs.
  assert (Pl : at_place ch k f) by (exists fs; auto).
  pose proof (place_in ch k f Pl) as In_f.
  unfold run. cbn [call_attr].
  replace (mem (esc (fn_name f)) (instance_attrs fl)) with false.
  2: { symmetry. rewrite (esc_keyword _ Hkw). clear - Hkw.
       assert (E : forallb (fun w => negb (mem (w ++ "_") (instance_attrs fl))) python_keywords_ = true)
         by (destruct fl; reflexivity).
       rewrite forallb_forall in E. specialize (E _ Hkw). apply negb_true_iff in E. exact E. }
  assert (C : class_attr fl 0 ch (esc (fn_name f)) = Some (MCall k f)).
  { rewrite class_attr_all. apply last_def_found.
    { apply (all_defs_place fl _ _ ch 0 k f Pl). left. reflexivity. }
    intros w Hw.
    assert (Q : forall q n, In q ["send_"; "recv_"; "cb_send_"; "eb_send_"]%string -> esc (fn_name f) <> (q ++ n)%string).
    { intros q n Hq E. rewrite (esc_keyword _ Hkw) in E.
      assert (F : forallb (fun w => forallb (fun q => negb (String.prefix q (w ++ "_")))
                    ["send_"; "recv_"; "cb_send_"; "eb_send_"]%string) python_keywords_ = true) by reflexivity.
      rewrite forallb_forall in F. specialize (F _ Hkw). rewrite forallb_forall in F. specialize (F _ Hq).
      rewrite E in F. apply negb_true_iff in F. clear - F.
      assert (G : String.prefix q (q ++ n) = true).
      { clear. induction q as [|c q IH]; [destruct n; reflexivity|]. cbn [append String.prefix].
        destruct (ascii_dec c c); [assumption|congruence]. }
      congruence. }
    apply all_defs_in in Hw as [E|[[_ E]|(k' & g & Hg & Hw)]].
    - exfalso. rewrite (esc_keyword _ Hkw) in E. clear - Hkw E.
      assert (F : forallb (fun w => negb (String.eqb (w ++ "_") "__init__")) python_keywords_ = true) by reflexivity.
      rewrite forallb_forall in F. specialize (F _ Hkw). rewrite E in F. discriminate.
    - exfalso. rewrite (esc_keyword _ Hkw) in E. clear - Hkw E.
      assert (F : forallb (fun w => negb (String.eqb (w ++ "_") "_start_receiving")) python_keywords_ = true) by reflexivity.
      rewrite forallb_forall in F. specialize (F _ Hkw). rewrite E in F. discriminate.
    - apply fn_defs_in in Hw as [[E ->]|[[E _]|[[E _]|[[_ [E _]]|[_ [E _]]]]]];
        try (exfalso; eapply Q; [|exact E]; cbn; tauto).
      cbn [Nat.add]. destruct (place_unique ch Ha k f k' g Pl Hg) as [-> ->]; [|reflexivity].
      pose proof (place_in ch k' g Hg) as In_g. rewrite (esc_keyword _ Hkw) in E.
      destruct (esc_cases (fn_name g)) as [[_ Eg]|[Hg' Eg]]; rewrite Eg in E.
      + exfalso. apply (Hap (fn_name f) In_f Hkw). rewrite E. assumption.
      + apply append_inj_r in E. assumption. }
  rewrite C. unfold params. rewrite map_length. destruct (length vs =? length (fn_params f))%nat; [|reflexivity].
  destruct (call_hidden fl f); [reflexivity|].
  rewrite (not_instance fl "send_") by (cbn; tauto).
  replace (class_attr fl 0 ch ("send_" ++ fn_name f)) with (@None meth); [reflexivity|].
  symmetry. rewrite class_attr_all. apply last_def_absent. intros w Hw.
  apply all_defs_in in Hw as [E|[[_ E]|(k' & g & Hg & Hw)]]; [discriminate E|discriminate E|].
  pose proof (place_in ch k' g Hg) as In_g.
  apply fn_defs_in in Hw as [[E ->]|[[E _]|[[E _]|[[_ [E _]]|[_ [E _]]]]]]; try discriminate E.
  - destruct (esc_cases (fn_name g)) as [[_ Eg]|[Hg' Eg]]; rewrite Eg in E.
    + apply Hs. rewrite E. assumption.
    + apply (f_equal list_ascii_of_string) in E. clear - Hg' E.
      assert (F : forallb (fun w => negb (String.prefix "send_" (w ++ "_"))) python_keywords_ = true) by reflexivity.
      rewrite forallb_forall in F. specialize (F _ Hg'). apply slist_inj in E. rewrite <- E in F.
      cbn [append String.prefix] in F. repeat (destruct (ascii_dec _ _) in F; [|congruence]).
      destruct (fn_name f); discriminate.
  - apply append_inj_l in E. destruct (esc_cases (fn_name g)) as [[Hg' Eg]|[Hg' Eg]]; rewrite Eg in E.
    + apply Hg'. rewrite <- E. assumption.
    + revert Hkw. rewrite E. apply not_keyword. reflexivity.
Qed.
End Calls.

(** The calls of Rpc.v are those that a client makes. *)
Section AsModelled.
Context {X : Type}.
Variable P : proto X.
Variable env : schema.
Variable F : nat.
Variable m : Rpc.method.

Definition attr_value (x : string * lv (option value)) : option (option value) :=
  match snd x with LArg v => Some v | _ => None end.
Fixpoint attr_values (l : list (string * lv (option value))) : option (list (option value)) :=
  match l with
  | [] => Some []
  | x :: r => match attr_value x, attr_values r with Some v, Some vs => Some (v :: vs) | _, _ => None end
  end.
Definition rpc_begin (n : string) (oneway : bool) : SM (Rpc.cstate_ X) unit :=
  Rpc.on_cl (writeMessageBegin P (Rpc.lit n) (if oneway then ONEWAY else CALL) 0%Z).
Definition rpc_args (c : hcls) (attrs : list (string * lv (option value))) : SM (Rpc.cstate_ X) unit :=
  match c, attr_values attrs with
  | HArgs _, Some vs =>
      Rpc.on_cl (write_struct P env (Rpc.m_args m) (VStruct (Rpc.m_args m) vs)) ;;;
      Rpc.on_cl (writeMessageEnd P) ;;; Rpc.cl_flush
  | _, _ => raise ETypeError
  end.
Definition rpc_receive (c : option hcls) (f : fn) (vs : list (lv (option value))) : SM (Rpc.cstate_ X) Rpc.cresult :=
  match c with Some (HResult _) => Rpc.recv P env F m | _ => raise ENameError end.
Definition rpc_discard (r : Rpc.cresult) : Rpc.cresult :=
  match r with Rpc.CReturn _ => Rpc.CReturn None | _ => r end.

Theorem C74_as_modelled : forall ch k fs f types other vs fuel st,
  accepted ch -> plain_services Sync ch -> nth_error ch k = Some fs -> In f fs ->
  fn_compiles f = true -> length vs = length (fn_params f) ->
  (forall p, In p (fn_params f) -> ~ In (esc p) (captured Sync (fn_oneway f) ++ client_globals Sync f)) ->
  Rpc.m_name m = Rpc.lit (fn_name f) -> Rpc.m_oneway m = fn_oneway f ->
  (fn_void f = true <-> Rpc.m_ret m = None) ->
  call_attr Sync ch types rpc_begin rpc_args rpc_receive other (Rpc.CReturn None) rpc_discard
            (S (S fuel)) (fn_name f) (map LArg vs) st
  = (Rpc.send P env m vs ;;;
     if Rpc.m_oneway m then ret (Rpc.CReturn None) else Rpc.recv P env F m) st.
Proof.
  intros ch k fs f types other vs fuel st Ha Hp Hk Hf Hc Hl Hn Em Eo Ev.
  rewrite (C74_call types rpc_begin rpc_args rpc_receive other (Rpc.CReturn None) rpc_discard
             Sync ch k fs f vs fuel st Ha Hp Hk Hf Hc Hl Hn).
  unfold rpc_args at 1.
  replace (attr_values (combine (map esc (fn_params f)) (map LArg vs))) with (Some vs).
  2: { clear - Hl. revert vs Hl. induction (fn_params f) as [|q l IH]; intros [|v vs] Hl; try discriminate; [reflexivity|].
       cbn [map combine attr_values]. rewrite <- (IH vs) by (cbn [length] in Hl; lia). reflexivity. }
  unfold Rpc.send, rpc_begin. rewrite Em, Eo. rewrite !bind_assoc. apply bind_ext. intros _ s1.
  rewrite !bind_assoc. apply bind_ext. intros _ s2. rewrite !bind_assoc. apply bind_ext. intros _ s3.
  apply bind_ext. intros _ s4. destruct (fn_oneway f); [reflexivity|].
  cbn [rpc_receive]. destruct (fn_void f) eqn:Hv.
  - assert (Hr : Rpc.m_ret m = None) by (apply Ev; reflexivity).
    unfold Rpc.recv. rewrite !bind_assoc. apply bind_ext. intros [[a b] c] s5.
    destruct (b =? EXCEPTION)%Z.
    + rewrite !bind_assoc. apply bind_ext. intros x s6. rewrite !bind_assoc. apply bind_ext. intros _ s7.
      unfold bind, ret. destruct (Rpc.attrs x) as [|y1 [|y2 [|y3 l]]]; reflexivity.
    + rewrite !bind_assoc. apply bind_ext. intros x s6. rewrite !bind_assoc. apply bind_ext. intros _ s7.
      unfold bind, ret, Rpc.result_of. rewrite Hr. destruct (Rpc.first_set (Rpc.attrs x)); reflexivity.
  - unfold bind, ret. destruct (Rpc.recv P env F m s4) as [[r| |] s5]; reflexivity.
Qed.
End AsModelled.

(** * Serving a function *)

Lemma process_defs_in fl s fs n mth : In (("process_" ++ n)%string, mth) (processor_defs fl s fs) ->
  exists g, In g fs /\ n = esc (fn_name g) /\ mth = PProcess s g.
Proof.
  intros H. unfold processor_defs in H. apply in_app_or in H as [[H|[H|[H|[]]]]|H]; try discriminate H.
  apply in_flat_map in H as (g & Hg & H). apply in_app_or in H as [[H|[]]|H].
  - injection H as H <-. exists g. subst. auto.
  - destruct fl; try contradiction. destruct (fn_oneway g).
    + destruct H as [H|[]]. discriminate H.
    + destruct H as [H|[H|[]]]; discriminate H.
Qed.

Lemma process_map_in fl n mth : forall ch s, In (n, mth) (process_map fl s ch) ->
  exists k fs g, nth_error ch k = Some fs /\ In g fs /\ n = fn_name g
    /\ last_def ("process_" ++ esc (fn_name g)) (processor_defs fl (s + k) fs) = Some mth.
Proof.
  induction ch as [|fs ch IH]; intros s H; cbn [process_map] in H; [destruct H|].
  apply in_app_or in H as [H|H].
  - apply in_flat_map in H as (g & Hg & H).
    destruct (last_def _ _) as [m'|] eqn:E; [|destruct H]. destruct H as [H|[]]. injection H as <- <-.
    exists O, fs, g. rewrite Nat.add_0_r. auto.
  - destruct (IH (S s) H) as (k & fs' & g & A & B & C & D). exists (S k), fs', g.
    rewrite Nat.add_succ_r. auto.
Qed.
Lemma process_map_place fl n mth : forall ch s k fs g, nth_error ch k = Some fs -> In g fs -> n = fn_name g ->
  last_def ("process_" ++ esc (fn_name g)) (processor_defs fl (s + k) fs) = Some mth ->
  In (n, mth) (process_map fl s ch).
Proof.
  induction ch as [|gs ch IH]; intros s k fs g Hk Hg -> E; [destruct k; discriminate|].
  cbn [process_map]. apply in_or_app. destruct k as [|k]; cbn [nth_error] in Hk.
  - injection Hk as ->. left. apply in_flat_map. exists g. split; [assumption|].
    rewrite Nat.add_0_r in E. rewrite E. left. reflexivity.
  - right. apply (IH (S s) k fs g Hk Hg eq_refl). rewrite Nat.add_succ_r in E. exact E.
Qed.

(** A message goes to the method of the function that it names. *)
Theorem C74_dispatch : forall fl ch k fs f,
  accepted ch -> apart ch -> nth_error ch k = Some fs -> In f fs ->
  dispatch_to fl ch (fn_name f) = Some (PProcess k f).
Proof.
  intros fl ch k fs f Ha Hap Hk Hf.
  assert (L : forall k' fs' g, nth_error ch k' = Some fs' -> In g fs' ->
    last_def ("process_" ++ esc (fn_name g)) (processor_defs fl (0 + k') fs') = Some (PProcess k' g)).
  { intros k' fs' g Hk' Hg. apply last_def_found.
    - unfold processor_defs. apply in_or_app. right. apply in_flat_map. exists g. split; [assumption|]. left. reflexivity.
    - intros w Hw. apply process_defs_in in Hw as (h & Hh & E & ->). f_equal.
      apply (fn_unique fs'); auto.
      + apply (accepted_module ch k'); assumption.
      + assert (Ig : In (fn_name g) (functions ch)) by (apply (place_in ch k'); exists fs'; auto).
        assert (Ih : In (fn_name h) (functions ch)) by (apply (place_in ch k'); exists fs'; auto).
        destruct (esc_cases (fn_name g)) as [[_ Eg]|[Kg Eg]], (esc_cases (fn_name h)) as [[_ Eh]|[Kh Eh]]; rewrite Eg, Eh in E.
        * congruence.
        * exfalso. apply (Hap _ Ih Kh). rewrite <- E. assumption.
        * exfalso. apply (Hap _ Ig Kg). rewrite E. assumption.
        * symmetry. apply append_inj_r in E. assumption. }
  unfold dispatch_to. apply last_def_found.
  - apply (process_map_place fl _ _ ch 0 k fs f Hk Hf eq_refl). apply (L k fs f Hk Hf).
  - intros w Hw. apply process_map_in in Hw as (k' & fs' & g & Hk' & Hg & E & D).
    rewrite (L k' fs' g Hk' Hg) in D. injection D as <-.
    destruct (place_unique ch Ha k f k' g) as [-> ->]; auto; eexists; split; eassumption.
Qed.
(** A name of no function goes nowhere. *)
Theorem C74_unknown : forall fl ch n, ~ In n (functions ch) -> dispatch_to fl ch n = None.
Proof.
  intros fl ch n H. apply last_def_absent. intros w Hw. apply process_map_in in Hw as (k & fs & g & Hk & Hg & -> & _).
  apply H. apply (place_in ch k). exists fs. auto.
Qed.

Ltac closed_eqb :=
  repeat match goal with
  | |- context [String.eqb ?a ?b] =>
      let r := eval vm_compute in (String.eqb a b) in
      match r with
      | true => change (String.eqb a b) with true
      | false => change (String.eqb a b) with false
      end
  end.

Lemma clear_locals (fl : flavour) {V} (n : string) (e : V) :
  ~ In n used_after ->
  let fr1 := match fl with
             | Sync => bindv "msg_type" (QType false) (bindv n (QExn e) (frame fl true))
             | _ => bindv n (QExn e) (frame fl true)
             end in
  let fr := unbindv n (assign_result n fr1) in
  assoc "oprot" (pf_locals fr) = Some QOprot /\ assoc "msg_type" (pf_locals fr) = Some (QType false)
  /\ assoc "seqid" (pf_locals fr) = Some QSeqid /\ assoc "result" (pf_locals fr) = Some QResult
  /\ pf_success fr = None /\ pf_attrs fr = [(n, QExn e)].
Proof.
  intros Hn fr1 fr. subst fr1 fr.
  assert (K : forall g (fr : pframe V), g <> n -> assoc g (pf_locals (unbindv n fr)) = assoc g (pf_locals fr)).
  { intros g fr Hg. unfold unbindv. cbn [pf_locals]. induction (pf_locals fr) as [|[a b] l IH]; [reflexivity|].
    cbn [filter fst]. destruct (String.eqb_spec n a) as [->|Hna]; cbn [negb assoc].
    - destruct (String.eqb_spec g a) as [->|]; [contradiction|assumption].
    - destruct (String.eqb g a); [reflexivity|assumption]. }
  assert (H1 : "oprot" <> n) by (intros <-; apply Hn; cbn; tauto).
  assert (H2 : "msg_type" <> n) by (intros <-; apply Hn; cbn; tauto).
  assert (H3 : "seqid" <> n) by (intros <-; apply Hn; cbn; tauto).
  assert (H4 : "result" <> n) by (intros <-; apply Hn; cbn; tauto).
  rewrite !K by assumption.
  apply String.eqb_neq in H1, H2, H3, H4.
  assert (H2' : String.eqb n "msg_type" = false) by (rewrite String.eqb_sym; exact H2).
  unfold assign_result. destruct fl;
    repeat (progress (cbn [bindv pf_locals pf_success pf_attrs frame app assoc];
                      rewrite ?H1, ?H2, ?H3, ?H4, ?H2', ?(String.eqb_refl n); closed_eqb)); repeat split.
Qed.

(** What a served function answers. *)
Theorem C74_process : forall V class_of fl types ch k fs f (d : hdone V),
  accepted ch -> nth_error ch k = Some fs -> In f fs -> ~ In (fn_name f) python_keywords_ ->
  (forall x, In x (fn_xs f) -> ~ In (esc (fst x)) (used_after ++ process_globals class_of f)) ->
  process class_of fl f types fs d
  = PRun (HArgs f) (if fn_oneway f then None else Some (HResult f))
         (if fn_oneway f then NoReply
          else match d with
               | DReturn v => Reply false QResult (if fn_void f then None else Some v) []
               | DRaise c e =>
                   match find (fun x => Nat.eqb c (snd x)) (fn_xs f) with
                   | Some x => Reply false QResult None [(esc (fst x), QExn e)]
                   | None => Reply true QInternal None []
                   end
               | DApp e => Reply true (QExn e) None []
               | DTransport => NoReply
               | DOther => Reply true QInternal None []
               end).
Proof.
  intros V class_of fl types ch k fs f d Ha Hk Hf Hkw Hx.
  assert (Hg : forall g, In g (process_globals class_of f) -> hidden f g = false).
  { intros g Hg. unfold hidden. destruct (mem g (map (fun x => esc (fst x)) (fn_xs f))) eqn:E; [|reflexivity].
    apply mem_In in E. apply in_map_iff in E as (x & <- & Hi). exfalso.
    apply (Hx x Hi). apply in_or_app. right. exact Hg. }
  assert (Hu : forall x, In x (fn_xs f) -> ~ In (esc (fst x)) used_after).
  { intros x Hi H. apply (Hx x Hi). apply in_or_app. left. exact H. }
  unfold process. rewrite (esc_id _ Hkw), (global_args types fs f (accepted_module ch k fs Ha Hk) Hf).
  assert (O : forall g, In g (process_globals class_of f) -> match fl with Twisted => false | _ => hidden f g end = false)
    by (intros g H; rewrite (Hg g H); destruct fl; reflexivity).
  rewrite O by (unfold process_globals; cbn; tauto).
  destruct (fn_oneway f) eqn:Ho; [reflexivity|].
  rewrite (global_result types fs f (accepted_module ch k fs Ha Hk) Hf Ho).
  rewrite O by (unfold process_globals; cbn; tauto). f_equal.
  assert (R : forall g (s : step V), In g (process_globals class_of f) -> reads f g s = s)
    by (intros g s H; unfold reads; rewrite (Hg g H); reflexivity).
  assert (D : forall c hit (miss : step V),
    declared class_of f (fn_xs f) c hit miss
    = match c with
      | None => miss
      | Some c => match find (fun x => Nat.eqb c (snd x)) (fn_xs f) with Some x => hit (fst x) | None => miss end
      end).
  { intros c hit miss.
    assert (G : forall xs, (forall x, In x xs -> In x (fn_xs f)) ->
      declared class_of f xs c hit miss
      = match c with
        | None => miss
        | Some c => match find (fun x => Nat.eqb c (snd x)) xs with Some x => hit (fst x) | None => miss end
        end).
    { induction xs as [|[n c'] xs IH]; intros Hi; cbn [declared find snd fst]; [destruct c; reflexivity|].
      rewrite R.
      - destruct c as [c|]; [|apply IH; intros x Hx'; apply Hi; right; assumption].
        destruct (Nat.eqb c c'); [reflexivity|]. apply IH. intros x Hx'. apply Hi. right. assumption.
      - unfold process_globals. apply in_or_app. right. apply in_map_iff. exists (n, c'). split; [reflexivity|].
        apply Hi. left. reflexivity. }
    apply G. auto. }
  unfold answer, handled. rewrite (Hg "TMessageType"), (Hg "gen") by (unfold process_globals; cbn; tauto).
  rewrite !R by (unfold process_globals; cbn; tauto).
  destruct d as [v|c e|e| |].
  - destruct fl; destruct (fn_void f); reflexivity.
  - unfold excepts. rewrite !D. rewrite !R by (unfold process_globals; cbn; tauto).
    destruct (find (fun x => Nat.eqb c (snd x)) (fn_xs f)) as [[n c']|] eqn:E.
    + apply find_some in E as [E _]. cbn [fst].
      destruct (clear_locals fl (esc n) e (Hu _ E)) as (A1 & A2 & A3 & A4 & A5 & A6).
      destruct fl; rewrite ?R by (unfold process_globals; cbn; tauto); rewrite A1, A2, A3, A4, A5, A6; reflexivity.
    + destruct fl; reflexivity.
  - unfold excepts. rewrite !D. rewrite !R by (unfold process_globals; cbn; tauto). destruct fl; reflexivity.
  - unfold excepts. rewrite !D. rewrite !R by (unfold process_globals; cbn; tauto). destruct fl; reflexivity.
  - unfold excepts. rewrite !D. rewrite !R by (unfold process_globals; cbn; tauto). destruct fl; reflexivity.
Qed.

(** (defect) A function called like a word of Python cannot be served. *)
Theorem C74_keyword_process_fails : forall V class_of fl types ch k fs f (d : hdone V),
  accepted ch -> apart ch -> nth_error ch k = Some fs -> In f fs -> In (fn_name f) python_keywords_ ->
  ~ In (fn_name f ++ "__args")%string types ->
  process class_of fl f types fs d = PNameError.
Proof.
  intros V class_of fl types ch k fs f d Ha Hap Hk Hf Hkw Ht. unfold process. rewrite (esc_keyword _ Hkw).
  assert (E : ((fn_name f ++ "_") ++ "_args" = fn_name f ++ "__args")%string).
  { clear. induction (fn_name f) as [|a s IH]; [reflexivity|]. cbn [append]. rewrite IH. reflexivity. }
  replace (global_class types fs ((fn_name f ++ "_") ++ "_args")) with (@None hcls); [reflexivity|].
  symmetry. unfold global_class. rewrite last_def_absent.
  - rewrite E. destruct (mem (fn_name f ++ "__args") types) eqn:M; [|reflexivity]. apply mem_In in M. contradiction.
  - intros w Hw. apply in_flat_map in Hw as (g & Hg & Hw). apply helper_in in Hw as [[H _]|(_ & H & _)].
    + apply append_inj_r in H. apply (Hap (fn_name f)); [apply (place_in ch k); exists fs; auto|assumption|].
      rewrite H. apply (place_in ch k). exists fs. auto.
    + apply (f_equal (fun s => last (list_ascii_of_string s) "0"%char)) in H.
      rewrite !slist_app in H. clear - H.
      assert (L : forall (a : list ascii) b c, last (a ++ [b; c]) "0"%char = c).
      { induction a as [|x a IH]; intros b c; [reflexivity|]. cbn [app last].
        destruct (a ++ [b; c]) eqn:Q; [destruct a; discriminate|]. rewrite <- Q. apply IH. }
      change (list_ascii_of_string "_args") with (["_"; "a"; "r"]%char ++ ["g"; "s"]%char) in H.
      change (list_ascii_of_string "_result") with (["_"; "r"; "e"; "s"; "u"]%char ++ ["l"; "t"]%char) in H.
      rewrite !app_assoc, !L in H. discriminate.
Qed.

(** (defect) An exception called like a local that is used after it has been
    caught: the call in which it is raised is not answered. *)
Theorem C74_exception_unanswered : forall V class_of fl types ch k fs f x (e : V),
  accepted ch -> nth_error ch k = Some fs -> In f fs -> ~ In (fn_name f) python_keywords_ ->
  fn_oneway f = false -> NoDup (map snd (fn_xs f)) ->
  (forall y, In y (fn_xs f) -> ~ In (esc (fst y)) (process_globals class_of f)) ->
  In x (fn_xs f) -> In (fst x) used_after ->
  process class_of fl f types fs (DRaise (snd x) e) = PRun (HArgs f) (Some (HResult f)) Unbound.
Proof.
  intros V class_of fl types ch k fs f x e Ha Hk Hf Hkw Ho Nd Hx Hin Hu.
  assert (Hg : forall g, In g (process_globals class_of f) -> hidden f g = false).
  { intros g Hg. unfold hidden. destruct (mem g (map (fun x => esc (fst x)) (fn_xs f))) eqn:E; [|reflexivity].
    apply mem_In in E. apply in_map_iff in E as (y & <- & Hi). exfalso. apply (Hx y Hi). exact Hg. }
  unfold process. rewrite (esc_id _ Hkw), (global_args types fs f (accepted_module ch k fs Ha Hk) Hf).
  assert (O : forall g, In g (process_globals class_of f) -> match fl with Twisted => false | _ => hidden f g end = false)
    by (intros g H; rewrite (Hg g H); destruct fl; reflexivity).
  rewrite O by (unfold process_globals; cbn; tauto). rewrite Ho.
  rewrite (global_result types fs f (accepted_module ch k fs Ha Hk) Hf Ho).
  rewrite O by (unfold process_globals; cbn; tauto). f_equal.
  assert (R : forall g (s : step V), In g (process_globals class_of f) -> reads f g s = s)
    by (intros g s H; unfold reads; rewrite (Hg g H); reflexivity).
  assert (D : forall hit (miss : step V),
    declared class_of f (fn_xs f) (Some (snd x)) hit miss = hit (fst x)).
  { intros hit miss.
    assert (G : forall xs, NoDup (map snd xs) -> In x xs -> (forall y, In y xs -> In y (fn_xs f)) ->
      declared class_of f xs (Some (snd x)) hit miss = hit (fst x)).
    { induction xs as [|[n c'] xs IH]; intros N Hi Hs; [destruct Hi|]. cbn [declared]. rewrite R.
      - cbn [map snd] in N. inversion N as [|? ? N1 N2]; subst. destruct Hi as [Hi|Hi].
        + subst x. cbn [snd fst]. rewrite Nat.eqb_refl. reflexivity.
        + destruct (Nat.eqb_spec (snd x) c') as [Ec|_].
          * exfalso. apply N1. rewrite <- Ec. apply in_map. assumption.
          * apply IH; auto. intros y Hy. apply Hs. right. assumption.
      - unfold process_globals. apply in_or_app. right. apply in_map_iff. exists (n, c'). split; [reflexivity|].
        apply Hs. left. reflexivity. }
    apply G; auto. }
  assert (Ex : esc (fst x) = fst x).
  { apply esc_id. destruct Hu as [<-|[<-|[<-|[<-|[]]]]]; intros K; cbn in K;
      repeat (destruct K as [K|K]; [discriminate K|]); exact K. }
  unfold answer, handled. rewrite (Hg "gen") by (unfold process_globals; cbn; tauto).
  rewrite !R by (unfold process_globals; cbn; tauto).
  unfold excepts. rewrite !D, Ex. rewrite !R by (unfold process_globals; cbn; tauto).
  destruct Hu as [<-|[<-|[<-|[<-|[]]]]]; destruct fl; reflexivity.
Qed.

(** (defect) An exception called TMessageType: the function is never answered. *)
Theorem C74_exception_hides : forall V class_of fl types fs f x (d : hdone V),
  In x (fn_xs f) -> fst x = "TMessageType" -> fn_oneway f = false ->
  (fl = Twisted -> forall v, d <> DReturn v) ->
  match process class_of fl f types fs d with
  | PRun _ _ (Reply _ _ _ _) => False
  | _ => True
  end.
Proof.
  intros V class_of fl types fs f x d Hin Hn Ho Hd.
  assert (Hh : hidden f "TMessageType" = true).
  { apply mem_In. apply in_map_iff. exists x. split; [rewrite Hn; reflexivity|assumption]. }
  assert (Q : forall g (s : step V), s = SUnbound \/ s = SAgain -> reads f g s = SUnbound \/ reads f g s = SAgain)
    by (intros g s H; unfold reads; destruct (hidden f g); auto).
  assert (Q0 : forall s : step V, reads f "TMessageType" s = SUnbound) by (intros s; unfold reads; rewrite Hh; reflexivity).
  assert (Qd : forall xs c hit (miss : step V), (forall n, hit n = SUnbound) -> miss = SUnbound \/ miss = SAgain ->
    declared class_of f xs c hit miss = SUnbound \/ declared class_of f xs c hit miss = SAgain).
  { induction xs as [|[n c'] xs IH]; intros c hit miss H1 H2; cbn [declared]; [assumption|].
    apply Q. destruct (match c with Some c0 => Nat.eqb c0 c' | None => false end); [left; apply H1|apply IH; auto]. }
  assert (A : forall d', excepts class_of Sync f d' = SUnbound \/ excepts class_of Sync f d' = @SAgain V).
  { intros d'. unfold excepts. apply Q. destruct d'; auto; apply Qd; intros; auto; apply Q; try (apply Q; apply Q; auto; fail);
      auto 6. }
  unfold process. destruct (global_class types fs _) as [ca|]; [|exact I].
  destruct (match fl with Twisted => false | _ => _ end); [exact I|]. rewrite Ho.
  destruct (global_class types fs _) as [cr|]; [|exact I].
  destruct (match fl with Twisted => false | _ => _ end); [exact I|].
  unfold answer, handled. rewrite Hh. destruct fl.
  - assert (B : match d with DReturn v => excepts class_of Sync f DOther | _ => excepts class_of Sync f d end = SUnbound
                \/ match d with DReturn v => excepts class_of Sync f DOther | _ => excepts class_of Sync f d end = @SAgain V)
      by (destruct d; apply A).
    destruct B as [B|B]; rewrite B; exact I.
  - destruct d as [v|c e|e| |]; rewrite ?Q0; try exact I. exfalso. exact (Hd eq_refl v eq_refl).
  - rewrite Q0. exact I.
Qed.

(** (defect) So, for what is raised undeclared, if one is called
    TApplicationException, Exception or logging. *)
Theorem C74_undeclared_fails : forall V class_of fl types fs f x (d : hdone V),
  In x (fn_xs f) -> In (fst x) ["TApplicationException"; "Exception"; "logging"] -> fn_oneway f = false ->
  match d with
  | DOther => True
  | DRaise c _ => ~ In c (map snd (fn_xs f))
  | _ => False
  end ->
  match process class_of fl f types fs d with
  | PRun _ _ (Reply _ _ _ _) => False
  | _ => True
  end.
Proof.
  intros V class_of fl types fs f x d Hin Hn Ho Hd.
  assert (Hh : hidden f (fst x) = true).
  { apply mem_In. apply in_map_iff. exists x. split; [|assumption]. destruct Hn as [<-|[<-|[<-|[]]]]; reflexivity. }
  assert (Q : forall g (s : step V), s = SUnbound -> reads f g s = SUnbound)
    by (intros g s H; unfold reads; destruct (hidden f g); auto).
  assert (Qd : forall xs hit (miss : step V), (forall y, In y xs -> In y (fn_xs f)) -> miss = SUnbound ->
    declared class_of f xs (match d with DRaise c _ => Some c | _ => None end) hit miss = SUnbound).
  { induction xs as [|[n c'] xs IH]; intros hit miss Hs Hm; cbn [declared]; [assumption|]. apply Q.
    destruct (match match d with DRaise c _ => Some c | _ => None end with Some c0 => Nat.eqb c0 c' | None => false end) eqn:E.
    - exfalso. destruct d; try discriminate. apply Nat.eqb_eq in E. subst c. apply Hd.
      apply in_map_iff. exists (n, c'). split; [reflexivity|]. apply Hs. left. reflexivity.
    - apply IH; [|assumption]. intros y Hy. apply Hs. right. assumption. }
  assert (R : forall k, reads f "TApplicationException" (reads f "Exception" (reads f "logging" k)) = @SUnbound V).
  { intros k. unfold reads. destruct Hn as [E|[E|[E|[]]]]; rewrite <- E in Hh; rewrite Hh;
      destruct (hidden f "TApplicationException"), (hidden f "Exception"); reflexivity. }
  assert (A : forall fl', excepts class_of fl' f d = @SUnbound V).
  { intros fl'. unfold excepts. destruct fl', d; try contradiction; apply Q || idtac; (apply Qd; [auto|]) || idtac; apply R || (apply Q; apply R). }
  unfold process. destruct (global_class types fs _) as [ca|]; [|exact I].
  destruct (match fl with Twisted => false | _ => _ end); [exact I|]. rewrite Ho.
  destruct (global_class types fs _) as [cr|]; [|exact I].
  destruct (match fl with Twisted => false | _ => _ end); [exact I|].
  unfold answer, handled. destruct fl.
  - destruct d; try contradiction; rewrite A; exact I.
  - destruct d; try contradiction; rewrite A, Q by reflexivity; exact I.
  - assert (B : reads f "TMessageType" (if hidden f "gen" then excepts class_of Tornado f DOther
      else match d with DReturn v => SFrame (bindv "msg_type" (QType false)
              (if fn_void f then frame Tornado false else mkpf (pf_locals (frame Tornado false)) (Some v) (pf_attrs (frame Tornado false)))) | _ => excepts class_of Tornado f d end) = @SUnbound V).
    { apply Q. destruct (hidden f "gen").
      - clear A Qd. assert (Qd : forall xs hit (miss : step V), miss = SUnbound -> declared class_of f xs None hit miss = SUnbound).
        { induction xs as [|[n c'] xs IH]; intros hit miss Hm; cbn [declared]; [assumption|]. apply Q. apply IH. assumption. }
        unfold excepts. apply Qd. apply Q. apply R.
      - destruct d; try contradiction; apply A. }
    rewrite B. exact I.
Qed.

(** A function that throws an exception called Exception. *)
Example C74_undeclared_fails_ex :
  let f := mkfn "f" [] false true [("Exception", 0%nat)] in
  process (V := nat) (fun _ => "E") Sync f [] [f] DOther = PRun (HArgs f) (Some (HResult f)) Unbound
  /\ process (V := nat) (fun _ => "E") Sync f [] [f] (DRaise 1%nat 5%nat) = PRun (HArgs f) (Some (HResult f)) Unbound
  /\ process (V := nat) (fun _ => "E") Sync (mkfn "f" [] false true [("e", 0%nat)]) [] [mkfn "f" [] false true [("e", 0%nat)]] DOther
     = PRun (HArgs (mkfn "f" [] false true [("e", 0%nat)])) (Some (HResult (mkfn "f" [] false true [("e", 0%nat)]))) (Reply true QInternal None []).
Proof. vm_compute. auto. Qed.


(** (defect) An exception called like its class: where it is raised, and where
    anything undeclared is raised, there is no answer. *)
Theorem C74_exception_like_class_fails : forall V class_of fl types fs f x (d : hdone V),
  In x (fn_xs f) -> esc (fst x) = class_of (snd x) -> fn_oneway f = false -> NoDup (map snd (fn_xs f)) ->
  match d with
  | DReturn _ => False
  | DRaise c _ => c = snd x \/ ~ In c (map snd (fn_xs f))
  | _ => True
  end ->
  match process class_of fl f types fs d with
  | PRun _ _ (Reply _ _ _ _) => False
  | _ => True
  end.
Proof.
  intros V class_of fl types fs f x d Hin Hn Ho Nd Hd.
  assert (Hh : hidden f (class_of (snd x)) = true).
  { apply mem_In. apply in_map_iff. exists x. split; [exact Hn|assumption]. }
  assert (Q : forall g (s : step V), s = SUnbound \/ s = SAgain -> reads f g s = SUnbound \/ reads f g s = SAgain)
    by (intros g s H; unfold reads; destruct (hidden f g); auto).
  assert (Qd : forall c hit (miss : step V), (c = None \/ c = Some (snd x) \/ exists c', c = Some c' /\ ~ In c' (map snd (fn_xs f))) ->
    declared class_of f (fn_xs f) c hit miss = SUnbound).
  { intros c hit miss Hc.
    assert (G : forall xs, NoDup (map snd xs) -> In x xs -> (forall y, In y xs -> In y (fn_xs f)) ->
      declared class_of f xs c hit miss = SUnbound).
    { induction xs as [|[n c'] xs IH]; intros N Hi Hs; [destruct Hi|]. cbn [declared].
      cbn [map snd] in N. inversion N as [|? ? N1 N2]; subst.
      destruct Hi as [Hi|Hi]; [subst x; cbn [snd] in Hh; unfold reads; rewrite Hh; reflexivity|].
      unfold reads. destruct (hidden f (class_of c')); [reflexivity|].
      assert (M : match c with Some c0 => Nat.eqb c0 c' | None => false end = false).
      { destruct Hc as [->|[->|(c0 & -> & Hc)]]; [reflexivity| |].
        - apply Nat.eqb_neq. intros Ec. apply N1. rewrite <- Ec. apply in_map. assumption.
        - apply Nat.eqb_neq. intros ->. apply Hc. change c' with (snd (n, c')). apply in_map. apply Hs. left. reflexivity. }
      rewrite M. apply IH; auto. intros y Hy. apply Hs. right. assumption. }
    apply G; auto. }
  assert (A : forall d', match d' with DReturn _ => True | DRaise c _ => c = snd x \/ ~ In c (map snd (fn_xs f)) | _ => True end ->
                excepts class_of fl f d' = SUnbound \/ excepts class_of fl f d' = @SAgain V).
  { intros d' Hd'. unfold excepts.
    assert (Hc : match d' with DRaise c _ => Some c | _ => None end = None
                 \/ match d' with DRaise c _ => Some c | _ => None end = Some (snd x)
                 \/ exists c', match d' with DRaise c _ => Some c | _ => None end = Some c' /\ ~ In c' (map snd (fn_xs f))).
    { destruct d' as [v|c e|e| |]; auto. destruct Hd' as [->|Hd']; [auto|]. right. right. eauto. }
    destruct fl.
    - apply Q. destruct d'; auto; left; apply Qd; exact Hc.
    - left. apply Qd. exact Hc.
    - left. apply Qd. exact Hc. }
  unfold process. destruct (global_class types fs _) as [ca|]; [|exact I].
  destruct (match fl with Twisted => false | _ => _ end); [exact I|]. rewrite Ho.
  destruct (global_class types fs _) as [cr|]; [|exact I].
  destruct (match fl with Twisted => false | _ => _ end); [exact I|].
  unfold answer.
  assert (B : handled class_of fl f d = SUnbound \/ handled class_of fl f d = SAgain).
  { unfold handled. destruct fl.
    - destruct d as [v|c e|e| |]; [destruct Hd| | | |]; apply A; auto.
    - destruct d as [v|c e|e| |]; [destruct Hd| | | |]; apply Q; apply A; auto.
    - apply Q. destruct (hidden f "gen"); [apply A; exact I|].
      destruct d as [v|c e|e| |]; [destruct Hd| | | |]; apply A; auto. }
  destruct B as [B|B]; rewrite B; exact I.
Qed.

(** * Modules that cannot be imported *)

(** (defect) A parameter [self], a word of Python and the same with an underscore
    behind it, or an exception [success] or [self] in a function that returns
    something. *)
Theorem C74_syntax_error_fails : forall fs f,
  In f fs ->
  In "self" (fn_params f)
  \/ (exists p, In p python_keywords_ /\ In p (fn_params f) /\ In (p ++ "_")%string (fn_params f))
  \/ (fn_oneway f = false /\ fn_void f = false /\ In "success" (map fst (fn_xs f)))
  \/ (fn_oneway f = false /\ In "self" (map fst (fn_xs f))) ->
  module_compiles fs = false.
Proof.
  intros fs f Hf H. unfold module_compiles. apply not_true_iff_false. rewrite forallb_forall. intros F.
  specialize (F f Hf). unfold fn_compiles in F. apply andb_prop in F as [F1 F2]. apply distinct_NoDup in F1.
  inversion F1 as [|? ? N1 N2]; subst.
  destruct H as [H|[(p & Kp & H1 & H2)|[(Ho & Hv & H)|(Ho & H)]]].
  - apply N1. apply in_map_iff. exists "self". split; [reflexivity|assumption].
  - assert (Q : forall l, NoDup (map esc l) -> In p l -> In (p ++ "_")%string l -> False).
    { clear - Kp. intros l N H1 H2.
      assert (E : esc p = esc (p ++ "_")).
      { rewrite (esc_keyword _ Kp), esc_id; [reflexivity|]. apply not_keyword. reflexivity. }
      assert (D : p <> (p ++ "_")%string).
      { intros D. apply (f_equal String.length) in D. clear - D. induction p as [|a p IH]; [discriminate|].
        apply IH. cbn [append String.length] in D. injection D as D. exact D. }
      induction l as [|x l IH]; [destruct H1|]. cbn [map] in N. inversion N as [|? ? M1 M2]; subst.
      destruct H1 as [->|H1], H2 as [H2|H2].
      - contradiction.
      - apply M1. rewrite E. apply in_map. assumption.
      - subst x. apply M1. rewrite <- E. apply in_map. assumption.
      - apply IH; assumption. }
    exact (Q _ N2 H1 H2).
  - rewrite Ho, Hv in F2. cbn [orb] in F2. apply distinct_NoDup in F2.
    inversion F2 as [|? ? M1 M2]; subst. cbn [app] in M2. inversion M2 as [|? ? M3 M4]; subst.
    apply M3. apply in_map_iff in H as (x & Ex & Hx). apply in_map_iff. exists x. split; [rewrite Ex; reflexivity|assumption].
  - rewrite Ho in F2. cbn [orb] in F2. apply distinct_NoDup in F2.
    inversion F2 as [|? ? M1 M2]; subst. apply M1. apply in_or_app. right.
    apply in_map_iff in H as (x & Ex & Hx). apply in_map_iff. exists x. split; [rewrite Ex; reflexivity|assumption].
Qed.

(** * Cases *)

(** Two services, the second extending the first; what is done is written down. *)
Definition ex_ping := mkfn "ping" [] false true [].
Definition ex_add := mkfn "add" ["num1"; "in"] false false [("ouch", 3%nat); ("from", 4%nat)].
Definition ex_log := mkfn "log" ["seqid"; "future"; "level"] true true [].
Definition ex_chain : chain := [[ex_ping; ex_log]; [ex_add]].

Inductive done :=
| DBegin (n : string) (oneway : bool)
| DArgs (c : string) (attrs : list (string * lv Z))
| DReceive (c : string).
Definition cls_text (c : option hcls) : string :=
  match c with
  | Some (HArgs f) => fn_name f ++ "_args"
  | Some (HResult f) => fn_name f ++ "_result"
  | Some HTypes => "ttypes"
  | None => "NameError"
  end%string.
Definition tr_begin (n : string) (oneway : bool) : SM (list done) unit := fun s => (Ok tt, s ++ [DBegin n oneway]).
Definition tr_args (c : hcls) (a : list (string * lv Z)) : SM (list done) unit :=
  fun s => (Ok tt, s ++ [DArgs (cls_text (Some c)) a]).
Definition tr_receive (c : option hcls) (f : fn) (vs : list (lv Z)) : SM (list done) Z :=
  fun s => (Ok 7%Z, s ++ [DReceive (cls_text c)]).
Definition tr fl ch n (vs : list Z) :=
  call_attr fl ch [] tr_begin tr_args tr_receive (fun _ _ => raise ETypeError) 0%Z (fun _ => 0%Z) 2 n (map LArg vs) [].

Example C74_plain_ex : forall fl, accepted ex_chain /\ plain_services fl ex_chain /\ apart ex_chain
  /\ forallb module_compiles ex_chain = true.
Proof.
  intros fl. repeat split.
  - unfold accepted, functions. cbn. repeat constructor; cbn; intuition discriminate.
  - intros n [<-|[<-|[<-|[]]]] H; cbn in H; intuition discriminate.
  - intros n m q [<-|[<-|[<-|[]]]] [<-|[<-|[<-|[]]]] Hq; destruct fl; cbn in Hq; intros E; intuition (subst; discriminate).
  - intros n [<-|[<-|[<-|[]]]] H; destruct fl; cbn in H; intuition discriminate.
  - intros n [<-|[<-|[<-|[]]]] H; cbn in H; intuition discriminate.
Qed.
Example C74_call_ex :
  tr Sync ex_chain "add" [1; 2]%Z
  = (Ok 7%Z, [DBegin "add" false; DArgs "add_args" [("num1", LArg 1%Z); ("in_", LArg 2%Z)]; DReceive "add_result"])
  /\ tr Twisted ex_chain "ping" [] = (Ok 0%Z, [DBegin "ping" false; DArgs "ping_args" []])
  /\ (forall p, In p (fn_params ex_add) -> ~ In (esc p) (captured Tornado false ++ client_globals Tornado ex_add)).
Proof.
  split; [vm_compute; reflexivity|]. split; [vm_compute; reflexivity|].
  intros p [<-|[<-|[]]] H; cbn in H; intuition discriminate.
Qed.
(** The sequence number is logged in place of the first argument. *)
Example C74_argument_lost_ex :
  tr Twisted ex_chain "log" [1; 2; 3]%Z
  = (Ok 0%Z, [DBegin "log" true; DArgs "log_args" [("seqid", LSeqid); ("future", LArg 2%Z); ("level", LArg 3%Z)]])
  /\ tr Sync ex_chain "log" [1; 2; 3]%Z
     = (Ok 0%Z, [DBegin "log" true; DArgs "log_args" [("seqid", LArg 1%Z); ("future", LArg 2%Z); ("level", LArg 3%Z)]]).
Proof. split; vm_compute; reflexivity. Qed.
(** A parameter called like the class of the arguments: the message is begun. *)
Example C74_hidden_global_ex :
  tr Sync [[mkfn "f" ["f_args"] false true []]] "f" [1]%Z = (Raise ETypeError, [DBegin "f" false])
  /\ tr Tornado [[mkfn "f" ["TMessageType"] false true []]] "f" [1]%Z = (Raise EAttributeError, []).
Proof. split; vm_compute; reflexivity. Qed.
Example C74_keyword_ex :
  let ch := [[mkfn "from" ["a"] false true []]] in
  tr Sync ch "from_" [1]%Z = (Raise EAttributeError, [])
  /\ dispatch_to Sync ch "from" = Some (PProcess 0 (mkfn "from" ["a"] false true []))
  /\ process (fun _ => "X") Sync (mkfn "from" ["a"] false true []) [] [mkfn "from" ["a"] false true []] (DReturn 1%Z)
     = PNameError.
Proof. vm_compute. auto. Qed.
Example C74_process_ex : forall fl,
  let cls := fun c => if Nat.eqb c 3 then "Ouch" else "Other" in
  process cls fl ex_add [] [ex_add] (DRaise 4 5%Z)
  = PRun (HArgs ex_add) (Some (HResult ex_add)) (Reply false QResult None [("from_", QExn 5%Z)])
  /\ (forall x, In x (fn_xs ex_add) -> ~ In (esc (fst x)) (used_after ++ process_globals cls ex_add)).
Proof.
  intros fl cls. split; [destruct fl; vm_compute; reflexivity|].
  intros x [<-|[<-|[]]] H; cbn in H; intuition discriminate.
Qed.
Example C74_unanswered_ex : forall fl,
  let f := mkfn "f" [] false false [("result", 3%nat)] in
  process (fun _ => "Ouch") fl f [] [f] (DRaise 3 5%Z) = PRun (HArgs f) (Some (HResult f)) Unbound
  /\ process (fun _ => "Ouch") fl f [] [f] (DReturn 5%Z)
     = PRun (HArgs f) (Some (HResult f)) (Reply false QResult (Some 5%Z) []).
Proof. intros fl f. destruct fl; vm_compute; auto. Qed.
Example C74_like_class_ex : forall fl,
  let f := mkfn "f" [] false false [("Ouch", 3%nat)] in
  process (fun _ => "Ouch") fl f [] [f] (DRaise 3 5%Z) = PRun (HArgs f) (Some (HResult f)) Unbound.
Proof. intros fl f. destruct fl; vm_compute; auto. Qed.
Example C74_syntax_error_ex :
  module_compiles [ex_add] = true /\ module_compiles [mkfn "f" ["from"; "from_"] false true []] = false.
Proof. vm_compute. auto. Qed.

(** It is not true of all services that the parser accepts that a client method
    calls its function: here [send_ping] sends [ping], and waits for nothing; and
    the messages for [from] go to [from_]. *)
Theorem C74_names_refuted :
  (exists ch n, accepted ch /\ apart ch /\ forallb module_compiles ch = true /\ In n (functions ch)
     /\ tr Sync ch n [] = (Ok 0%Z, [DBegin "ping" false; DArgs "ping_args" []]) /\ n = "send_ping")
  /\ (exists ch f, accepted ch /\ forallb module_compiles ch = true /\ In "from" (functions ch)
     /\ dispatch_to Sync ch "from" = Some (PProcess 0 f) /\ fn_name f = "from_").
Proof.
  split.
  - exists [[mkfn "send_ping" [] false true []; ex_ping]], "send_ping". repeat split.
    + unfold accepted, functions. cbn. repeat constructor; cbn; intuition discriminate.
    + intros n [<-|[<-|[]]] H; cbn in H; intuition discriminate.
    + left. reflexivity.
  - exists [[mkfn "from" [] false true []; mkfn "from_" [] false true []]], (mkfn "from_" [] false true []). repeat split.
    + unfold accepted, functions. cbn. repeat constructor; cbn; intuition discriminate.
    + left. reflexivity.
Qed.

(** Axioms used. *)
Print Assumptions C74_call_exact.
Print Assumptions C74_call.
Print Assumptions C74_argument_lost.
Print Assumptions C74_hidden_global_fails.
Print Assumptions C74_reply.
Print Assumptions C74_keyword_call_fails.
Print Assumptions C74_as_modelled.
Print Assumptions C74_dispatch.
Print Assumptions C74_unknown.
Print Assumptions C74_process.
Print Assumptions C74_keyword_process_fails.
Print Assumptions C74_exception_unanswered.
Print Assumptions C74_exception_hides.
Print Assumptions C74_undeclared_fails.
Print Assumptions C74_exception_like_class_fails.
Print Assumptions C74_syntax_error_fails.
Print Assumptions C74_names_refuted.
