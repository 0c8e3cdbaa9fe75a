(** Facts about generated classes whose field names clash with something. *)
From Coq Require Import String.
From Coq Require Import ZArith List Bool Lia ZifyBool ZifyNat.
From Coq Require Import Init.Byte.
From Verif Require Import Base Bytes Proto Spec Dynamic Ext ExtRead.
From Verif Require Import GenClass SpecClass GenClassFacts GenClassWrite.
Import ListNotations.
Open Scope Z_scope.

Notation esc := maybe_escape_identifier.

Lemma esc_never m : ~ In (esc m) python_keywords_.
Proof.
  intros H. unfold maybe_escape_identifier in H.
  destruct (mem m python_keywords_) eqn:E.
  - apply mem_In in E. cbn [python_keywords_ In] in E.
    repeat (destruct E as [<-|E];
      [apply mem_In in H; vm_compute in H; discriminate H|]). destruct E.
  - apply mem_not in E. contradiction.
Qed.

Lemma esc_cases m : esc m = m \/ (In m python_keywords_ /\ esc m = (m ++ "_")%string).
Proof.
  unfold maybe_escape_identifier. destruct (mem m python_keywords_) eqn:E; [right|left; reflexivity].
  split; [apply mem_In; assumption|reflexivity].
Qed.

Lemma app_inj_tail_str n m : (n ++ "_")%string = (m ++ "_")%string -> n = m.
Proof.
  revert m. induction n as [|c n IH]; intros [|d m] H; cbn [append] in H.
  - reflexivity.
  - injection H as _ H. destruct m; discriminate H.
  - injection H as _ H. destruct n; discriminate H.
  - injection H as -> H. f_equal. apply IH. assumption.
Qed.

(** Escaping is injective on names none of which is the escape of another. *)
Lemma esc_inj n m : esc n = esc m -> n = m \/ esc n = m \/ esc m = n.
Proof.
  intros H. destruct (esc_cases n) as [En|[_ En]], (esc_cases m) as [Em|[_ Em]].
  - left. congruence.
  - right. right. congruence.
  - right. left. congruence.
  - left. apply app_inj_tail_str. congruence.
Qed.

Lemma upd_names {A} (l : list (string * A)) n v m :
  In m (map fst (upd l n v)) -> m = n \/ In m (map fst l).
Proof.
  induction l as [|[x w] l IH]; cbn [upd map fst In].
  - intros [H|[]]; auto.
  - destruct (String.eqb_spec n x) as [->|]; cbn [map fst In]; intuition.
Qed.

Lemma assoc_not_in {A} n (l : list (string * A)) : assoc n l = None -> ~ In n (map fst l).
Proof.
  induction l as [|[m v] l IH]; cbn [assoc map fst In]; [tauto|].
  destruct (String.eqb_spec n m) as [->|]; [discriminate|]. intros H [H1|H1]; [congruence|].
  exact (IH H H1).
Qed.

Section Construct.
Variable p : gprog.
Variable k : gclass.

Lemma construct_init kw a : construct p k kw = Ok a ->
  init_fields p k (k_fields k) kw [] = Ok a.
Proof. unfold construct. destruct (forallb _ kw); [auto|discriminate]. Qed.

Definition put_name (f : gfield) : string :=
  if k_imm k then g_name f else esc (g_name f).

Lemma base_setattr_upd a n v a' : base_setattr p k a n v = Ok a' -> a' = upd a n v.
Proof.
  unfold base_setattr. destruct (_ && _ && _); [discriminate|]. intros [= <-]. reflexivity.
Qed.

Lemma base_setattr_slots a n v a' : base_setattr p k a n v = Ok a' ->
  o_slots p = true -> k_exc k = false -> In n (names k).
Proof.
  unfold base_setattr. intros H Hs He. rewrite Hs, He in H. cbn [andb negb] in H.
  destruct (in_slots k n) eqn:E; [|discriminate]. apply mem_In. exact E.
Qed.

Lemma setattr_upd a n v a' : k_imm k = false -> setattr p k a n v = Ok a' ->
  exists w, base_setattr p k a n w = Ok a' /\ (o_enum p = false -> w = v).
Proof.
  intros Hi. unfold setattr. rewrite Hi. destruct (o_enum p); [|eauto].
  destruct (enum_field k n) as [e|]; [|intros H; exists v; split; auto].
  destruct v as [x|]; [|intros H; exists None; split; auto].
  destruct (has_value x); [intros H; exists (Some x); split; auto|].
  destruct (enum_call p e x) as [m|ex|]; [|discriminate|discriminate].
  intros H. exists (Some m). split; [assumption|discriminate].
Qed.

Lemma init_field_upd f v a a' : init_field p k f v a = Ok a' ->
  exists w, base_setattr p k a (put_name f) w = Ok a' /\ (o_enum p = false -> w = v).
Proof.
  unfold init_field, put_name. destruct (k_imm k) eqn:Hi.
  - destruct (o_enum p); [|eauto]. destruct (direct_enum f) as [e|]; [|intros H; eexists; split; eauto; discriminate].
    destruct v as [x|]; [|intros H; eexists; split; eauto; discriminate].
    destruct (has_value x); [intros H; eexists; split; eauto; discriminate|].
    destruct (members_get p e x) as [m|ex|]; try discriminate.
    intros H; eexists; split; eauto; discriminate.
  - apply setattr_upd. assumption.
Qed.

Lemma init_names gs kw : forall a a', init_fields p k gs kw a = Ok a' ->
  forall m, In m (map fst a') -> In m (map fst a) \/ In m (map put_name gs).
Proof.
  induction gs as [|f gs IH]; intros a a' H m Hm; cbn [init_fields] in H.
  - injection H as <-. auto.
  - match type of H with match ?e with _ => _ end = _ =>
      destruct e as [a1|ex|] eqn:E; try discriminate H end.
    apply init_field_upd in E as (w & E & _). apply base_setattr_upd in E. subst a1.
    destruct (IH _ _ H m Hm) as [Hi|Hi]; [|right; right; assumption].
    apply upd_names in Hi as [->|Hi]; [right; left; reflexivity|auto].
Qed.

Lemma init_has gs kw : forall a a', init_fields p k gs kw a = Ok a' ->
  (forall m v, assoc m a = Some v -> exists w, assoc m a' = Some w)
  /\ forall f, In f gs -> exists w, assoc (put_name f) a' = Some w.
Proof.
  induction gs as [|g gs IH]; intros a a' H; cbn [init_fields] in H.
  - injection H as <-. split; [eauto|intros f []].
  - match type of H with match ?e with _ => _ end = _ =>
      destruct e as [a1|ex|] eqn:E; try discriminate H end.
    apply init_field_upd in E as (w & E & _). apply base_setattr_upd in E. subst a1.
    destruct (IH _ _ H) as [H1 H2]. split.
    + intros m v Hm. destruct (String.eqb_spec m (put_name g)) as [->|Hne].
      * eapply H1. rewrite assoc_upd, String.eqb_refl. reflexivity.
      * eapply H1. rewrite assoc_upd. destruct (String.eqb_spec m (put_name g)); [contradiction|].
        eassumption.
    + intros f [<-|Hf]; [|auto]. eapply H1. rewrite assoc_upd, String.eqb_refl. reflexivity.
Qed.

Lemma constructed_has kw a f m : construct p k kw = Ok a -> In f (k_fields k) ->
  g_name f = m -> esc m = m -> exists w, assoc m a = Some w.
Proof.
  intros H Hf <- He. apply construct_init in H. apply init_has in H as [_ H].
  specialize (H f Hf). unfold put_name in H. destruct (k_imm k); [assumption|].
  rewrite He in H. assumption.
Qed.

Lemma init_slots_fails gs kw : forall a a' f,
  o_slots p = true -> k_exc k = false -> k_imm k = false ->
  In f gs -> ~ In (esc (g_name f)) (names k) ->
  init_fields p k gs kw a = Ok a' -> False.
Proof.
  induction gs as [|g gs IH]; intros a a' f Hs He Hi Hf Hn H; [destruct Hf|].
  cbn [init_fields] in H.
  match type of H with match ?e with _ => _ end = _ =>
    destruct e as [a1|ex|] eqn:E; try discriminate H end.
  destruct Hf as [<-|Hf]; [|eapply IH; eauto].
  apply init_field_upd in E as (w & E & _). apply base_setattr_slots in E; auto.
  unfold put_name in E. rewrite Hi in E. contradiction.
Qed.

Lemma imm_missing f kw a : k_imm k = true ->
  ~ In (esc (g_name f)) (names k) -> construct p k kw = Ok a ->
  assoc (esc (g_name f)) a = None.
Proof.
  intros Hi Hn H. apply construct_init in H. apply assoc_None. intros Hm.
  destruct (init_names _ _ _ _ H _ Hm) as [[]|Hm']. apply Hn. unfold names.
  erewrite map_ext; [exact Hm'|]. intros g. unfold put_name. rewrite Hi. reflexivity.
Qed.

Lemma mut_missing f kw a : k_imm k = false -> In (g_name f) python_keywords_ ->
  construct p k kw = Ok a -> assoc (g_name f) a = None.
Proof.
  intros Hi Hk H. apply construct_init in H. apply assoc_None. intros Hm.
  destruct (init_names _ _ _ _ H _ Hm) as [[]|Hm']. apply in_map_iff in Hm' as (g & E & _).
  unfold put_name in E. rewrite Hi in E. apply (esc_never (g_name g)). rewrite E. assumption.
Qed.

(** What a field gets, without the [enum] option. *)
Definition arg (kw : attrs) (f : gfield) : option pv :=
  match assoc (esc (g_name f)) kw with
  | Some v => v
  | None => option_map (lift p (g_ty f)) (g_def f)
  end.
Lemma init_keeps gs kw m : ~ In m (map (put_name) gs) -> forall a a',
  init_fields p k gs kw a = Ok a' -> assoc m a' = assoc m a.
Proof.
  induction gs as [|g gs IH]; intros Hm a a' H; cbn [init_fields] in H.
  - injection H as <-. reflexivity.
  - match type of H with match ?e with _ => _ end = _ =>
      destruct e as [a1|ex|] eqn:E; try discriminate H end.
    apply init_field_upd in E as (w & E & _). apply base_setattr_upd in E. subst a1.
    rewrite (IH) with (2 := H) by (intros Hm'; apply Hm; right; assumption).
    rewrite assoc_upd. destruct (String.eqb_spec m (put_name g)) as [->|]; [|reflexivity].
    exfalso. apply Hm. left. reflexivity.
Qed.

Lemma init_gives l1 f l2 kw : o_enum p = false -> ~ In (put_name f) (map put_name l2) ->
  forall a a', init_fields p k (l1 ++ f :: l2) kw a = Ok a' ->
  assoc (put_name f) a' = Some (arg kw f).
Proof.
  intros Ho Hn. induction l1 as [|g l1 IH]; intros a a' H; cbn [app init_fields] in H.
  - fold (arg kw f) in H.
    destruct (init_field p k f (arg kw f) a) as [a1|ex|] eqn:E; try discriminate H.
    apply init_field_upd in E as (w & E & Hw). apply base_setattr_upd in E. subst a1.
    rewrite (Hw Ho) in H. rewrite (init_keeps _ _ _ Hn _ _ H).
    rewrite assoc_upd, String.eqb_refl. reflexivity.
  - match type of H with match ?e with _ => _ end = _ =>
      destruct e as [a1|ex|] eqn:E; try discriminate H end.
    eapply IH; eauto.
Qed.

(** Nothing else gets the place of a field named by a keyword. *)
Lemma keyword_default f kw a : o_enum p = false -> NoDup (names k) ->
  In f (k_fields k) -> In (g_name f) python_keywords_ ->
  ~ In (esc (g_name f)) (names k) ->
  construct p k kw = Ok a -> assoc (put_name f) a = Some (arg kw f).
Proof.
  intros Ho Hnd Hf Hk Hn Hc. apply construct_init in Hc.
  apply in_split in Hf as (l1 & l2 & El). unfold names in *. rewrite El in *.
  eapply init_gives; [assumption| |exact Hc].
  rewrite map_app in Hnd. cbn [map] in Hnd. apply NoDup_remove_2 in Hnd.
  intros H. apply in_map_iff in H as (g & E & Hg). unfold put_name in E.
  assert (Hgn : g_name g <> g_name f).
  { intros E'. apply Hnd. apply in_app_iff. right. rewrite <- E'. apply in_map. assumption. }
  destruct (k_imm k); [contradiction|].
  destruct (esc_inj _ _ E) as [E'|[E'|E']].
  - contradiction.
  - apply (esc_never (g_name g)). rewrite E'. assumption.
  - apply Hn. rewrite E'. rewrite map_app. apply in_app_iff. right. right.
    apply in_map. assumption.
Qed.
End Construct.

Section Write.
Context {X : Type}.
Variable p : gprog.

Lemma bind_ok {S A B} (m : SM S A) (g : A -> SM S B) s b s' : bind m g s = (Ok b, s') ->
  exists a s1, m s = (Ok a, s1) /\ g a s1 = (Ok b, s').
Proof. unfold bind. destruct (m s) as [[a|e|] s1]; try discriminate. eauto. Qed.

Lemma try_finally_ok {S A} (m : SM S A) (c : S -> S) s a s' :
  try_finally m c s = (Ok a, s') -> exists s2, m s = (Ok a, s2).
Proof.
  unfold try_finally. destruct (m s) as [o s1]. intros [= -> _]. eauto.
Qed.

Lemma with_depth_ok {A} (m : M X A) s a s' : with_depth m s = (Ok a, s') ->
  exists s1 s2, m s1 = (Ok a, s2).
Proof.
  unfold with_depth. intros H. apply bind_ok in H as (? & s1 & _ & H).
  apply try_finally_ok in H as (s2 & H). eauto.
Qed.

Lemma gwrite_fields_missing (P : proto X) ws gs f : In f gs -> assoc (esc (g_name f)) ws = None ->
  forall s u s', gwrite_fields P ws gs s <> (Ok u, s').
Proof.
  induction gs as [|g gs IH]; intros Hf Hn s u s' H; [destruct Hf|].
  cbn [gwrite_fields] in H.
  destruct Hf as [->|Hf]; [rewrite Hn in H; discriminate H|].
  destruct (assoc (esc (g_name g)) ws) as [[w|]|]; [| |discriminate H].
  - apply bind_ok in H as (? & s1 & _ & H). apply bind_ok in H as (? & s2 & _ & H).
    apply bind_ok in H as (? & s3 & _ & H). eapply IH; eauto.
  - eapply IH; eauto.
Qed.

Lemma assoc_map_None {A B} (h : string * A -> string * B) l n :
  (forall e, fst (h e) = fst e) -> assoc n l = None -> assoc n (map h l) = None.
Proof.
  intros Hh H. apply assoc_not_in in H. apply assoc_None. rewrite map_map.
  erewrite map_ext; [exact H|]. assumption.
Qed.

Lemma gwrite_missing (P : proto X) n k f a s u s' : nth_error (p_classes p) n = Some k ->
  In f (k_fields k) -> assoc (esc (g_name f)) a = None ->
  gwrite p P (GStruct n) (PObj n a) s = (Ok u, s') -> False.
Proof.
  intros Ek Hf Hn H. cbn [gwrite] in H. rewrite Ek in H.
  apply bind_ok in H as (? & s1 & _ & H). apply bind_ok in H as (? & s2 & _ & H).
  apply bind_ok in H as (? & s3 & _ & H). apply with_depth_ok in H as (s4 & s5 & H).
  apply bind_ok in H as (? & s6 & _ & H). apply bind_ok in H as (? & s7 & H & _).
  revert H. eapply gwrite_fields_missing; [exact Hf|].
  apply assoc_map_None; [|assumption]. intros [m [y|]]; reflexivity.
Qed.

Lemma gwrite_hidden (P : proto X) n k f a s u s' :
  nth_error (p_classes p) n = Some k -> In f ["write"; "validate"]%string ->
  (exists w, assoc f a = Some w) ->
  gwrite p P (GStruct n) (PObj n a) s = (Ok u, s') -> False.
Proof.
  intros Ek Hf [w Hw] H. cbn [gwrite] in H. rewrite Ek in H. unfold method in H.
  apply bind_ok in H as (? & s1 & H1 & H). apply bind_ok in H as (? & s2 & H2 & _).
  cbn in Hf. destruct Hf as [<-|[<-|[]]]; rewrite Hw in *; discriminate.
Qed.

Lemma gread_hidden (P : proto X) dfuel fuel n k f s x s' :
  nth_error (p_classes p) n = Some k -> In f (k_fields k) ->
  g_name f = "read"%string -> k_imm k = false ->
  gread_struct p P dfuel fuel n s = (Ok x, s') -> False.
Proof.
  intros Ek Hf Hn Hi H. destruct dfuel as [|d]; [discriminate H|].
  cbn [gread_struct] in H. rewrite Ek, Hi in H.
  apply bind_ok in H as (a0 & s1 & H1 & H).
  destruct (construct p k []) as [a| |] eqn:Ec; try discriminate H1.
  injection H1 as <- <-.
  destruct (constructed_has p k [] a f "read"%string Ec Hf Hn eq_refl) as [w Hw].
  apply bind_ok in H as (? & s2 & H & _). unfold method in H. rewrite Hw in H. discriminate H.
Qed.

Lemma gvalidate_missing gs a f : In f gs -> g_req f = true ->
  assoc (esc (g_name f)) a = None -> gvalidate gs a <> Ok tt.
Proof.
  induction gs as [|g gs IH]; intros Hf Hr Hn; [destruct Hf|]. cbn [gvalidate].
  destruct Hf as [->|Hf].
  - rewrite Hr. unfold getattr. rewrite Hn. discriminate.
  - destruct (g_req g); [|auto]. destruct (getattr a (esc (g_name g))) as [[y|]| |]; try discriminate.
    auto.
Qed.

Lemma gfast_missing (I : cimpl X) n k f a s u s' : nth_error (p_classes p) n = Some k ->
  In f (k_fields k) -> g_req f = true -> assoc (esc (g_name f)) a = None ->
  gfast_write p I n a s = (Ok u, s') -> False.
Proof.
  intros Ek Hf Hr Hn H. unfold gfast_write in H. rewrite Ek in H.
  apply bind_ok in H as (? & s1 & _ & H). apply bind_ok in H as (? & s2 & _ & H).
  apply bind_ok in H as ([] & s3 & H & _).
  destruct (gvalidate (k_fields k) a) as [[]| |] eqn:E; try discriminate H.
  revert E. apply (gvalidate_missing _ _ f); assumption.
Qed.

Lemma gencode_fields_missing (I : cimpl X) ws sp f : In (Some f) sp -> assoc (g_name f) ws = None ->
  forall s u s', gencode_fields I ws sp s <> (Ok u, s').
Proof.
  induction sp as [|g sp IH]; intros Hf Hn s u s' H; [destruct Hf|].
  cbn [gencode_fields] in H.
  destruct Hf as [->|Hf]; [rewrite Hn in H; discriminate H|].
  destruct g as [g|]; [|eapply IH; eauto].
  destruct (assoc (g_name g) ws) as [[[v w]|]|]; [| |discriminate H].
  - apply bind_ok in H as (? & s1 & _ & H). eapply IH; eauto.
  - eapply IH; eauto.
Qed.

Lemma recursion_guard_ok {A} (m : M X A) s a s' : recursion_guard m s = (Ok a, s') ->
  exists s1 s2, m s1 = (Ok a, s2).
Proof.
  unfold recursion_guard. destruct (_ >? _); [discriminate|]. intros H.
  apply try_finally_ok in H as (s2 & H). eauto.
Qed.

Lemma gencode_missing (I : cimpl X) n k f a s u s' : nth_error (p_classes p) n = Some k ->
  In (Some f) (gspec (k_fields k)) -> assoc (g_name f) a = None ->
  gfast_write p I n a s = (Ok u, s') -> False.
Proof.
  intros Ek Hf Hn H. unfold gfast_write in H. rewrite Ek in H.
  apply bind_ok in H as (? & s1 & _ & H). apply bind_ok in H as (? & s2 & _ & H).
  apply bind_ok in H as (? & s3 & _ & H). cbn [gencode] in H.
  rewrite Nat.eqb_refl in H. cbn [negb] in H. rewrite Ek in H.
  apply recursion_guard_ok in H as (s4 & s5 & H). unfold struct_scope in H.
  apply bind_ok in H as (? & s6 & _ & H). apply try_finally_ok in H as (s7 & H).
  apply bind_ok in H as (? & s8 & H & _). revert H.
  apply (gencode_fields_missing I _ _ f Hf).
  apply assoc_map_None; [|assumption]. intros [m [y|]]; reflexivity.
Qed.
End Write.

(** * The C decoder *)

Lemma gspec_entries_In gs f : forall pos, In (Some f) (gspec_entries pos gs) -> In f gs.
Proof.
  induction gs as [|g gs IH]; intros pos H; cbn [gspec_entries] in H; [destruct H|].
  apply in_app_iff in H as [H|[H|H]].
  - apply repeat_spec in H. discriminate H.
  - injection H as ->. left. reflexivity.
  - right. eapply IH; eauto.
Qed.
Lemma gspec_In gs f : In (Some f) (gspec gs) -> In f gs.
Proof.
  unfold gspec. destruct gs as [|g gs]; [intros []|]. destruct (0 <=? g_id g); [|intros []].
  apply gspec_entries_In.
Qed.

(** Whatever is kept by every assignment to a field is kept by the loop. *)
Lemma gdecode_fields_inv {X} (D : dimpl X) (Q : attrs -> Prop) skfuel skdepth rv spec put :
  (forall g v a a', In (Some g) spec -> Q a -> put (g_name g) v a = Ok a' -> Q a') ->
  forall fuel acc s a s', Q acc ->
  gdecode_fields D fuel skfuel skdepth rv spec put acc s = (Ok a, s') -> Q a.
Proof.
  intros Hput. induction fuel as [|fuel IH]; intros acc s a s' Hq H; [discriminate H|].
  cbn [gdecode_fields] in H. apply bind_ok in H as ([type tag] & s1 & _ & H).
  destruct (type =? T_STOP); [injection H as <- _; assumption|].
  assert (Hag : forall s2, bind (cskip D skfuel skdepth type)
      (fun _ => gdecode_fields D fuel skfuel skdepth rv spec put acc) s2 = (Ok a, s') -> Q a).
  { intros s2 H2. apply bind_ok in H2 as (? & s3 & _ & H2). eapply IH; eauto. }
  destruct ((tag <? 0) || (tag >=? Z.of_nat (length spec))); [eauto|].
  destruct (nth_error spec (Z.to_nat tag)) as [[g|]|] eqn:Eg; [|eauto|eauto].
  destruct (negb (code (ety (g_ty g)) =? type)); [eauto|].
  apply bind_ok in H as (v & s2 & _ & H). apply bind_ok in H as (acc' & s3 & H1 & H).
  destruct (put (g_name g) v acc) as [a1| |] eqn:Ep; try discriminate H1.
  injection H1 as <- _. eapply IH; [|exact H].
  eapply Hput; eauto. eapply nth_error_In. exact Eg.
Qed.

Section Decode.
Context {X : Type}.
Variable D : dimpl X.
Variable p : gprog.
Variables (n : nat) (k : gclass) (f : gfield).
Hypothesis Ek : nth_error (p_classes p) n = Some k.
Hypothesis Ho : o_enum p = false.
Hypothesis Hnd : NoDup (names k).
Hypothesis Hf : In f (k_fields k).
Hypothesis Hk : In (g_name f) python_keywords_.
Hypothesis Hn : ~ In (esc (g_name f)) (names k).

Lemma decode_keyword_mut top dfuel fuel s x s' : k_imm k = false ->
  gdecode_struct p D top dfuel fuel n s = (Ok x, s') ->
  exists a, x = PObj n a
    /\ assoc (esc (g_name f)) a = Some (option_map (lift p (g_ty f)) (g_def f)).
Proof.
  intros Hi H. destruct dfuel as [|d]; [discriminate H|]. cbn [gdecode_struct] in H.
  rewrite Ek in H. unfold own_setattr in H. rewrite Hi, Ho in H. cbn [orb andb] in H.
  replace (if top then false else false) with false in H by (destruct top; reflexivity).
  apply bind_ok in H as (a0 & s1 & H1 & H). apply bind_ok in H as (? & s2 & _ & H).
  apply recursion_guard_ok in H as (s3 & s4 & H). unfold read_scope in H.
  apply bind_ok in H as (? & s5 & _ & H). apply try_finally_ok in H as (s6 & H).
  apply bind_ok in H as (a & s7 & H & Hr). injection Hr as <- _.
  exists a. split; [reflexivity|].
  destruct (construct p k []) as [b| |] eqn:Ec; try discriminate H1. injection H1 as -> _.
  revert H. apply (gdecode_fields_inv D
    (fun a => assoc (esc (g_name f)) a = Some (option_map (lift p (g_ty f)) (g_def f)))).
  - intros g v b b' Hg Hq Hb. apply (setattr_upd p k) in Hb as (w & Hb & _); [|assumption].
    apply base_setattr_upd in Hb. subst b'. rewrite assoc_upd.
    destruct (String.eqb_spec (esc (g_name f)) (g_name g)) as [E|]; [|assumption].
    exfalso. apply Hn. rewrite E. apply in_map. apply gspec_In. assumption.
  - pose proof (keyword_default p k f [] a0 Ho Hnd Hf Hk Hn Ec) as H.
    unfold put_name in H. rewrite Hi in H. exact H.
Qed.

Lemma decode_keyword_imm top dfuel fuel s x s' : k_imm k = true ->
  gdecode_struct p D top dfuel fuel n s = (Ok x, s') ->
  exists a, x = PObj n a
    /\ assoc (g_name f) a = Some (option_map (lift p (g_ty f)) (g_def f)).
Proof.
  intros Hi H. destruct dfuel as [|d]; [discriminate H|]. cbn [gdecode_struct] in H.
  rewrite Ek in H. unfold own_setattr in H. rewrite Hi in H. cbn [orb andb] in H.
  replace (if top then true else true) with true in H by (destruct top; reflexivity).
  apply recursion_guard_ok in H as (s3 & s4 & H). unfold read_scope in H.
  apply bind_ok in H as (? & s5 & _ & H). apply try_finally_ok in H as (s6 & H).
  apply bind_ok in H as (kw & s7 & H & Hr). apply bind_ok in Hr as (a & s8 & H1 & Hr).
  injection Hr as <- _. exists a. split; [reflexivity|].
  destruct (construct p k kw) as [b| |] eqn:Ec; try discriminate H1. injection H1 as -> _.
  assert (Hkw : assoc (esc (g_name f)) kw = None).
  { revert H. apply (gdecode_fields_inv D (fun a => assoc (esc (g_name f)) a = None)).
    - intros g v b b' Hg Hq [= <-]. rewrite assoc_upd.
      destruct (String.eqb_spec (esc (g_name f)) (g_name g)) as [E|]; [|assumption].
      exfalso. apply Hn. rewrite E. apply in_map. apply gspec_In. assumption.
    - reflexivity. }
  pose proof (keyword_default p k f kw a Ho Hnd Hf Hk Hn Ec) as H2.
  unfold put_name, arg in H2. rewrite Hi, Hkw in H2. exact H2.
Qed.
End Decode.

(** * Hashing *)

Lemma collect_missing gs a f : In f gs -> assoc (esc (g_name f)) a = None ->
  forall l, collect gs a <> Ok l.
Proof.
  induction gs as [|g gs IH]; intros Hf Hn l; [destruct Hf|]. cbn [collect].
  destruct Hf as [->|Hf].
  - unfold getattr. rewrite Hn. discriminate.
  - destruct (getattr a (esc (g_name g))) as [v| |]; try discriminate.
    destruct (collect gs a) as [l'| |] eqn:E; try discriminate.
    exfalso. exact (IH Hf Hn l' eq_refl).
Qed.

Lemma hash_missing p vh ch th n k f a h : nth_error (p_classes p) n = Some k ->
  In f (k_fields k) -> assoc (esc (g_name f)) a = None ->
  obj_hash p vh ch th n a = Ok h -> False.
Proof.
  intros Ek Hf Hn H. unfold obj_hash in H. rewrite Ek in H.
  destruct (k_imm k); [|discriminate H].
  destruct (collect (k_fields k) a) as [l| |] eqn:E; try discriminate H.
  revert E. apply (collect_missing _ _ f); assumption.
Qed.
