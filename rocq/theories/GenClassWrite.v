(** Writing objects of generated classes: the same as writing the values they
    stand for. *)
From Coq Require Import String.
From Coq Require Import ZArith List Bool Lia.
From Coq Require Import Init.Byte.
From Coq Require Import ZifyBool ZifyNat ZifyN.
From Verif Require Import Base Bytes Utf8 Proto Spec Dynamic Ext ExtRead RoundTrip.
From Verif Require Import GenClass SpecClass GenClassFacts.
Import ListNotations.
Open Scope Z_scope.

Definition peq {S A} (m1 m2 : SM S A) : Prop := forall s, m1 s = m2 s.

Lemma peq_refl {S A} (m : SM S A) : peq m m.
Proof. intros s. reflexivity. Qed.
Lemma peq_bind {S A B} (m1 m2 : SM S A) (k1 k2 : A -> SM S B) :
  peq m1 m2 -> (forall a, peq (k1 a) (k2 a)) -> peq (bind m1 k1) (bind m2 k2).
Proof.
  intros H Hk s. unfold bind. rewrite H. destruct (m2 s) as [[a|e|] s1]; auto. apply Hk.
Qed.
Lemma peq_try {S A} (m1 m2 : SM S A) f : peq m1 m2 -> peq (try_finally m1 f) (try_finally m2 f).
Proof. intros H s. unfold try_finally. rewrite H. reflexivity. Qed.
Lemma peq_depth {X A} (m1 m2 : M X A) : peq m1 m2 -> peq (with_depth m1) (with_depth m2).
Proof.
  intros H. unfold with_depth. apply peq_bind; [apply peq_refl|]. intros _.
  apply peq_try. assumption.
Qed.
Lemma peq_mapM {S A B} (f : A -> SM S unit) (h : B -> SM S unit) (g : B -> A) l :
  Forall (fun x => peq (f (g x)) (h x)) l -> peq (mapM_ f (map g l)) (mapM_ h l).
Proof.
  induction 1 as [|x l Hx _ IH]; cbn [mapM_ map]; [apply peq_refl|].
  apply peq_bind; auto.
Qed.

Section Prog.
Variable p : gprog.
Notation E := (erased p).

Fixpoint shaped_fields (fs : list (option value)) (gs : list gfield) : bool :=
  match fs, gs with
  | [], [] => true
  | f :: fs', g :: gs' =>
      match f with Some x => shaped p (g_ty g) x | None => true end
      && shaped_fields fs' gs'
  | _, _ => false
  end.
Lemma shaped_struct a n fs : shaped p (GStruct a) (VStruct n fs) =
  match nth_error (p_classes p) n with
  | None => false
  | Some k => shaped_fields fs (k_fields k)
  end.
Proof. reflexivity. Qed.
Lemma shaped_len fs : forall gs, shaped_fields fs gs = true -> length fs = length gs.
Proof.
  induction fs as [|f fs IH]; intros [|g gs] H; cbn [shaped_fields length] in *; try discriminate; auto.
  apply andb_prop in H as [_ H]. rewrite (IH _ H). reflexivity.
Qed.
Lemma shaped_okfs fs gs : shaped_fields fs gs = true -> okfs gs fs.
Proof.
  intros H. split; [apply shaped_len; assumption|].
  revert gs H. induction fs as [|f fs IH]; intros [|g gs] H [|i] g' v Hg Hv;
    cbn [shaped_fields nth_error] in *; try discriminate;
    apply andb_prop in H as [H1 H2].
  - injection Hg as ->. injection Hv as ->. unfold okv.
    destruct (g_ty g'); auto. destruct v; try discriminate H1. eauto.
  - eapply IH; eauto.
Qed.

Lemma gvalidate_lift k : plain k -> forall fs gs (pre : attrs),
  (forall g, In g gs -> In g (k_fields k)) -> length fs = length gs ->
  NoDup (map g_name gs) -> (forall g, In g gs -> ~ In (g_name g) (map fst pre)) ->
  gvalidate gs (pre ++ lift_fields p fs gs)
  = if validate (map fdef gs) fs then Ok tt else Raise (EProtocol TP_UNKNOWN).
Proof.
  intros Hp. induction fs as [|f fs IH]; intros [|g gs] pre Hin Hl Hnd Hpre; try discriminate; [reflexivity|].
  cbn [gvalidate lift_fields map validate].
  assert (Hg := Hin g (or_introl eq_refl)).
  rewrite (esc_plain k g Hp Hg). unfold getattr.
  cbn [map] in Hnd. inversion Hnd as [|? ? H1 H2]; subst.
  rewrite assoc_app, assoc_None by (apply Hpre; left; reflexivity).
  cbn [assoc]. rewrite String.eqb_refl.
  assert (Hrec : gvalidate gs (pre ++ (g_name g, option_map (lift p (g_ty g)) f) :: lift_fields p fs gs)
    = if validate (map fdef gs) fs then Ok tt else Raise (EProtocol TP_UNKNOWN)).
  { replace (pre ++ (g_name g, option_map (lift p (g_ty g)) f) :: lift_fields p fs gs)
      with ((pre ++ [(g_name g, option_map (lift p (g_ty g)) f)]) ++ lift_fields p fs gs)
      by (rewrite <- app_assoc; reflexivity).
    apply IH; auto.
    - intros; apply Hin; right; assumption.
    - intros g' Hg' Hn. rewrite map_app, in_app_iff in Hn. destruct Hn as [Hn|[Hn|[]]].
      + apply (Hpre g'); [right; assumption|assumption].
      + cbn [fst] in Hn. apply H1. rewrite Hn. apply in_map. assumption. }
  rewrite Hrec. change (f_req (fdef g)) with (g_req g).
  destruct f as [x|]; cbn [option_map].
  - destruct (g_req g); reflexivity.
  - destruct (g_req g); cbn [negb andb]; reflexivity.
Qed.

Lemma gvalidate_obj k fs : plain k -> length fs = length (k_fields k) ->
  gvalidate (k_fields k) (lift_fields p fs (k_fields k))
  = if validate (map fdef (k_fields k)) fs then Ok tt else Raise (EProtocol TP_UNKNOWN).
Proof.
  intros Hp Hl. apply (gvalidate_lift k Hp fs (k_fields k) []); auto.
  apply Hp.
Qed.

(** Attribute-wise images of an object. *)
Lemma assoc_map {A B} (h : A -> B) n (l : list (string * A)) :
  assoc n (map (fun b => match b with (m, y) => (m, h y) end) l) = option_map h (assoc n l).
Proof.
  induction l as [|[m y] l IH]; cbn [assoc map option_map]; [reflexivity|].
  destruct (String.eqb n m); [reflexivity|apply IH].
Qed.

Section Write.
Context {X : Type}.
Variable P : proto X.

Lemma gwrite_fields_lift (ws : list (string * option (gty -> M X unit))) k : plain k ->
  forall fs gs,
  (forall g, In g gs -> In g (k_fields k)) -> length fs = length gs ->
  (forall i g f, nth_error gs i = Some g -> nth_error fs i = Some f ->
     exists w, assoc (g_name g) ws = Some w
     /\ match f, w with
        | Some x, Some w => peq (w (g_ty g)) (write_value P E (ety (g_ty g)) x)
        | None, None => True
        | _, _ => False
        end) ->
  peq (gwrite_fields P ws gs) (write_fields P (write_value P E) fs (map fdef gs)).
Proof.
  intros Hp. induction fs as [|f fs IH]; intros [|g gs] Hin Hl Hw; try discriminate; [apply peq_refl|].
  cbn [gwrite_fields map write_fields].
  rewrite (esc_plain k g Hp (Hin g (or_introl eq_refl))).
  destruct (Hw O g f eq_refl eq_refl) as (w & -> & Hww).
  assert (Hrec : peq (gwrite_fields P ws gs) (write_fields P (write_value P E) fs (map fdef gs))).
  { apply IH.
    - intros; apply Hin; right; assumption.
    - cbn [length] in Hl. lia.
    - intros i g' f' Hg' Hf'. apply (Hw (S i)); assumption. }
  destruct f as [x|], w as [w|]; try contradiction.
  - repeat (apply peq_bind; [try apply peq_refl; try assumption|intros _]). assumption.
  - assumption.
Qed.

Theorem gwrite_lift : (forall k, In k (p_classes p) -> plain k) -> forall v t,
  base_leaves t = true ->
  (forall k, In k (p_classes p) -> forall f, In f (k_fields k) -> base_leaves (g_ty f) = true) ->
  shaped p t v = true ->
  peq (gwrite p P t (lift p t v)) (write_value P E (ety t) v).
Proof.
  intros Hok v t Hb Hbl. revert t Hb.
  induction v using value_rect'; intros t Hb Hs;
    (destruct t as [bt|e td|imm t|imm t|imm kt vt|m];
      [ rewrite lift_base; cbn [gwrite ety];
        match goal with |- peq _ (write_value _ _ _ ?v) =>
          replace (write_value P E bt v) with (write_base P bt v)
            by (destruct bt; try discriminate Hb; reflexivity) end;
        apply peq_refl
      | | | | | ]); try discriminate Hs.
  - cbn [lift ety]. destruct (o_enum p) eqn:Ho; cbn [gwrite]; [|rewrite Ho]; apply peq_refl.
  - cbn [lift gwrite ety write_value]. rewrite map_length. cbn [base_leaves shaped] in *.
    apply peq_bind; [apply peq_refl|intros _]. apply peq_bind; [|intros _; apply peq_refl].
    apply peq_mapM. rewrite forallb_forall in Hs. rewrite Forall_forall in *. auto.
  - cbn [lift gwrite ety write_value]. rewrite map_length. cbn [base_leaves shaped] in *.
    apply peq_bind; [apply peq_refl|intros _]. apply peq_bind; [|intros _; apply peq_refl].
    apply peq_mapM. rewrite forallb_forall in Hs. rewrite Forall_forall in *. auto.
  - cbn [lift gwrite ety write_value]. rewrite map_length. cbn [base_leaves shaped] in *.
    apply andb_prop in Hb as [Hbk Hbv].
    apply peq_bind; [apply peq_refl|intros _]. apply peq_bind; [|intros _; apply peq_refl].
    apply peq_mapM. rewrite forallb_forall in Hs. rewrite Forall_forall in *.
    intros [k x] Hx. specialize (H _ Hx). specialize (Hs _ Hx). cbn [fst snd] in *.
    apply andb_prop in Hs as [Hsk Hsx]. destruct H as [Hk Hv].
    apply peq_bind; [|intros _]; auto.
  - rewrite lift_struct. rewrite shaped_struct in Hs. cbn [ety write_value gwrite].
    rewrite erased_nth.
    destruct (nth_error (p_classes p) n) as [k|] eqn:Ek; [|discriminate Hs].
    cbn [option_map].
    assert (Hk := nth_error_In _ _ Ek). assert (Hp := Hok k Hk).
    assert (Hl := shaped_len _ _ Hs).
    rewrite !(method_ok p k fs) by (auto; cbn; tauto).
    rewrite (gvalidate_obj k fs Hp Hl).
    intros s. unfold bind at 1. cbn [ret]. unfold bind at 1. cbn [ret].
    destruct (validate (map fdef (k_fields k)) fs); cbn [lift_out]; [|reflexivity].
    unfold bind at 1. cbn [ret]. revert s.
    apply peq_depth. apply peq_bind; [apply peq_refl|intros _].
    apply peq_bind; [|intros _; apply peq_refl].
    apply (gwrite_fields_lift _ k Hp); auto.
    intros i g f Hg Hf.
    rewrite Forall_forall in H. specialize (H f (nth_error_In _ _ Hf)).
    exists (option_map (fun y t' => gwrite p P t' y) (option_map (lift p (g_ty g)) f)).
    split.
    + replace (map _ (lift_fields p fs (k_fields k)))
        with (map (fun b => match b with (m, y) => (m, option_map (fun y t' => gwrite p P t' y) y) end)
                  (lift_fields p fs (k_fields k)))
        by (apply map_ext; intros [? [?|]]; reflexivity).
      rewrite assoc_map, (lift_fields_assoc p fs _ i g f) by (auto; apply Hp). reflexivity.
    + destruct f as [x|]; cbn [option_map]; [|exact Logic.I].
      apply H.
      * apply (Hbl k Hk). eapply nth_error_In; eauto.
      * clear - Hs Hg Hf. revert i fs Hs Hg Hf. generalize (k_fields k).
        induction l as [|g0 l IH]; intros [|i] [|f0 fs] Hs Hg Hf; cbn [nth_error] in *; try discriminate.
        -- injection Hg as ->. injection Hf as ->. cbn [shaped_fields] in Hs.
           apply andb_prop in Hs as [Hs _]. assumption.
        -- cbn [shaped_fields] in Hs. apply andb_prop in Hs as [_ Hs]. eapply IH; eauto.
Qed.

End Write.

(** * The C encoder *)

(** What [c_writeField] does with its arguments: the value is looked at for a
    bool field only, the encoder is called. *)
Definition field_ok {X} (I : cimpl X) : Prop :=
  (forall v v' t id m, t <> T_BOOL -> c_writeField I v t id m = c_writeField I v' t id m)
  /\ (forall v t id m m', peq m m' -> peq (c_writeField I v t id m) (c_writeField I v t id m')).

Section Encode.
Context {X : Type}.
Variable I : cimpl X.
Hypothesis HI : field_ok I.

Inductive entry_rel (gs : list gfield) : option gfield -> option (nat * fielddef) -> Prop :=
| er_none : entry_rel gs None None
| er_some i g : nth_error gs i = Some g -> entry_rel gs (Some g) (Some (i, fdef g)).

Lemma spec_entries_rel gs0 : forall gs pos i,
  (forall j g, nth_error gs j = Some g -> nth_error gs0 (i + j) = Some g) ->
  Forall2 (entry_rel gs0) (gspec_entries pos gs) (spec_entries pos i (map fdef gs)).
Proof.
  induction gs as [|g gs IH]; intros pos i H; cbn [gspec_entries map spec_entries]; [constructor|].
  change (f_id (fdef g)) with (g_id g).
  apply Forall2_app.
  - generalize (Z.to_nat (g_id g - pos)). induction n; cbn [repeat]; constructor; auto. constructor.
  - constructor.
    + constructor. specialize (H O g eq_refl). rewrite Nat.add_0_r in H. assumption.
    + apply IH. intros j g' Hj. replace (S i + j)%nat with (i + S j)%nat by lia.
      apply (H (S j)). assumption.
Qed.
Lemma spec_rel gs : Forall2 (entry_rel gs) (gspec gs) (thrift_spec (map fdef gs)).
Proof.
  destruct gs as [|g gs]; [constructor|]. unfold gspec, thrift_spec.
  cbn [map]. change (f_id (fdef g)) with (g_id g).
  destruct (0 <=? g_id g); [|constructor].
  apply (spec_entries_rel (g :: gs) (g :: gs) 0 0). auto.
Qed.

Lemma gencode_fields_lift (wg : list (string * option (value * (gty -> M X unit))))
    (wc : list (option (value * (ty -> M X unit)))) gs :
  (forall i g, nth_error gs i = Some g ->
     exists w1 w2, assoc (g_name g) wg = Some w1 /\ nth_error wc i = Some w2
     /\ match w1, w2 with
        | Some (v1, m1), Some (v2, m2) =>
            (code (ety (g_ty g)) = T_BOOL -> v1 = v2)
            /\ peq (m1 (g_ty g)) (m2 (ety (g_ty g)))
        | None, None => True
        | _, _ => False
        end) ->
  forall s1 s2, Forall2 (entry_rel gs) s1 s2 ->
  peq (gencode_fields I wg s1) (encode_fields I wc s2).
Proof.
  intros Hw s1 s2 H. induction H as [|e1 e2 s1 s2 He _ IH];
    cbn [gencode_fields encode_fields]; [apply peq_refl|].
  destruct He as [|i g Hg]; [assumption|].
  destruct (Hw i g Hg) as (w1 & w2 & -> & -> & Hm).
  destruct w1 as [[v1 m1]|], w2 as [[v2 m2]|]; try contradiction; [|assumption].
  destruct Hm as [Hv Hm]. apply peq_bind; [|intros _; assumption].
  change (f_ty (fdef g)) with (ety (g_ty g)). change (f_id (fdef g)) with (g_id g).
  destruct (Z.eq_dec (code (ety (g_ty g))) T_BOOL) as [Ec|Ec].
  - rewrite (Hv Ec). apply (proj2 HI). assumption.
  - rewrite (proj1 HI v1 v2) by assumption. apply (proj2 HI). assumption.
Qed.

Lemma peq_guard {A} (m1 m2 : M X A) : peq m1 m2 -> peq (recursion_guard m1) (recursion_guard m2).
Proof.
  intros H s. unfold recursion_guard. destruct (_ >? _); [reflexivity|]. apply peq_try. assumption.
Qed.
Lemma peq_scope {A} (m1 m2 : M X A) : peq m1 m2 -> peq (struct_scope I m1) (struct_scope I m2).
Proof.
  intros H. unfold struct_scope. apply peq_bind; [apply peq_refl|intros _]. apply peq_try. assumption.
Qed.

Theorem gencode_lift : (forall k, In k (p_classes p) -> NoDup (names k)) -> forall v t,
  base_leaves t = true ->
  (forall k, In k (p_classes p) -> forall f, In f (k_fields k) -> base_leaves (g_ty f) = true) ->
  shaped p t v = true ->
  peq (gencode p I t (lift p t v)) (encodeValue I E (ety t) v).
Proof.
  intros Hok v t Hb Hbl. revert t Hb.
  induction v using value_rect'; intros t Hb Hs;
    (destruct t as [bt|e td|imm t|imm t|imm kt vt|m];
      [ rewrite lift_base; cbn [gencode ety base_of];
        match goal with |- peq _ (encodeValue _ _ _ ?v) =>
          replace (encodeValue I E bt v) with (encode_base I bt v)
            by (destruct bt; try discriminate Hb; reflexivity) end;
        apply peq_refl
      | | | | | ]); try discriminate Hs.
  - cbn [lift ety]. destruct (o_enum p); apply peq_refl.
  - cbn [lift gencode ety encodeValue]. rewrite map_length. cbn [base_leaves shaped] in *.
    do 2 (apply peq_bind; [apply peq_refl|intros _]).
    apply peq_mapM. rewrite forallb_forall in Hs. rewrite Forall_forall in *. auto.
  - cbn [lift gencode ety encodeValue]. rewrite map_length. cbn [base_leaves shaped] in *.
    do 2 (apply peq_bind; [apply peq_refl|intros _]).
    apply peq_mapM. rewrite forallb_forall in Hs. rewrite Forall_forall in *. auto.
  - cbn [lift gencode ety encodeValue]. rewrite map_length. cbn [base_leaves shaped] in *.
    apply andb_prop in Hb as [Hbk Hbv].
    do 2 (apply peq_bind; [apply peq_refl|intros _]).
    apply peq_mapM. rewrite forallb_forall in Hs. rewrite Forall_forall in *.
    intros [k x] Hx. specialize (H _ Hx). specialize (Hs _ Hx). cbn [fst snd] in *.
    apply andb_prop in Hs as [Hsk Hsx]. destruct H as [Hk Hv].
    apply peq_bind; [|intros _]; auto.
  - rewrite lift_struct. rewrite shaped_struct in Hs. cbn [ety encodeValue gencode].
    destruct (Nat.eqb_spec m n) as [->|]; cbn [negb]; [|apply peq_refl].
    rewrite erased_nth.
    destruct (nth_error (p_classes p) n) as [k|] eqn:Ek; [|discriminate Hs].
    cbn [option_map].
    assert (Hk := nth_error_In _ _ Ek). assert (Hnd := Hok k Hk).
    assert (Hl := shaped_len _ _ Hs).
    apply peq_guard, peq_scope. apply peq_bind; [|intros _; apply peq_refl].
    apply (gencode_fields_lift _ _ (k_fields k)); [|apply spec_rel].
    intros i g Hg.
    destruct (nth_error fs i) as [f|] eqn:Hf.
    2:{ exfalso. apply nth_error_None in Hf. assert (i < length (k_fields k))%nat by (apply nth_error_Some; congruence). lia. }
    rewrite Forall_forall in H. specialize (H f (nth_error_In _ _ Hf)).
    exists (option_map (fun y => (base_of y, fun t' => gencode p I t' y)) (option_map (lift p (g_ty g)) f)),
      (option_map (fun x => (x, fun t' => encodeValue I E t' x)) f).
    split; [|split].
    + replace (map _ (lift_fields p fs (k_fields k)))
        with (map (fun b => match b with (m, y) => (m, option_map (fun y => (base_of y, fun t' => gencode p I t' y)) y) end)
                  (lift_fields p fs (k_fields k)))
        by (apply map_ext; intros [? [?|]]; reflexivity).
      rewrite assoc_map, (lift_fields_assoc p fs _ i g f) by auto. reflexivity.
    + rewrite (map_nth_error _ i _ Hf). destruct f; reflexivity.
    + destruct f as [x|]; cbn [option_map]; [|exact Logic.I].
      assert (Hbg : base_leaves (g_ty g) = true) by (apply (Hbl k Hk); eapply nth_error_In; eauto).
      split.
      * destruct (g_ty g) as [bt|e td| | | |]; cbn [ety code]; try discriminate.
        rewrite lift_base. reflexivity.
      * apply H; [assumption|].
        clear - Hs Hg Hf. revert i fs Hs Hg Hf. generalize (k_fields k).
        induction l as [|g0 l IH]; intros [|i] [|f0 fs] Hs Hg Hf; cbn [nth_error] in *; try discriminate.
        -- injection Hg as ->. injection Hf as ->. cbn [shaped_fields] in Hs.
           apply andb_prop in Hs as [Hs _]. assumption.
        -- cbn [shaped_fields] in Hs. apply andb_prop in Hs as [_ Hs]. eapply IH; eauto.
Qed.

End Encode.
End Prog.

Lemma field_ok_binary big : field_ok (cbinary big).
Proof.
  split; [reflexivity|]. intros v t id m m' H.
  cbn [cbinary c_writeField]. unfold eb_writeField.
  do 2 (apply peq_bind; [apply peq_refl|intros _]). assumption.
Qed.
Lemma field_ok_compact big : field_ok (ccompact big).
Proof.
  split; intros; cbn [ccompact c_writeField]; unfold ec_writeField.
  - destruct (Z.eqb_spec t T_BOOL); [contradiction|reflexivity].
  - destruct (t =? T_BOOL); [apply peq_refl|].
    apply peq_bind; [apply peq_refl|intros _]. assumption.
Qed.
