(** The C decoder on generated classes, against the plain model of it. *)
From Coq Require Import String.
From Coq Require Import ZArith List Bool Lia.
From Coq Require Import Init.Byte.
From Coq Require Import ZifyBool ZifyNat ZifyN.
From Verif Require Import Base Bytes Utf8 Proto Spec Dynamic Ext ExtRead.
From Verif Require Import GenClass SpecClass GenClassFacts GenClassWrite.
Import ListNotations.
Open Scope Z_scope.

Section Prog.
Variable p : gprog.
Notation E := (erased p).
Notation gsim := (gsim p).

(** What decodeValue makes of a value: an enum is a plain int. *)
Definition dlift (t : gty) (v : value) : pv :=
  match t with GEnum _ _ => PVal v | _ => lift p t v end.

Definition cty (t : gty) : Prop := o_enum p = false \/ no_enum t = true.

Lemma dlift_lift t v : cty t -> okv t v -> dlift t v = lift p t v.
Proof.
  intros H Hv. destruct t; try reflexivity. destruct H as [H|H]; [|discriminate H].
  destruct Hv as [z ->]. cbn [dlift lift]. rewrite H. reflexivity.
Qed.

Definition fieldty (k : gclass) (t : gty) : Prop :=
  cty t \/ exists e, t = GEnum e false /\ k_imm k = false.

Lemma c_readable_field k f : c_readable p -> In k (p_classes p) -> In f (k_fields k) ->
  fieldty k (g_ty f).
Proof.
  intros [H|H] Hk Hf; [left; left; assumption|].
  specialize (H k f Hk Hf). unfold fieldty, cty.
  destruct (g_ty f) as [|e [|]| | | |]; auto. right. eauto.
Qed.

Lemma enum_field_complete k f e : NoDup (names k) -> In f (k_fields k) ->
  g_ty f = GEnum e false -> enum_field k (g_name f) = Some e.
Proof.
  intros Hnd Hf Ht. unfold enum_field.
  destruct (find _ _) as [f'|] eqn:Ef.
  - pose proof (find_some _ _ Ef) as [Hf' Ex]. apply andb_prop in Ex as [En Ed].
    apply String.eqb_eq in En.
    destruct (direct_enum f') as [e'|] eqn:Ed'; [|discriminate].
    assert (Hx : enum_field k (g_name f) = Some e').
    { unfold enum_field. rewrite Ef. assumption. }
    apply (enum_field_In k f e' Hnd Hf) in Hx. rewrite Hx in Ht. congruence.
  - exfalso. pose proof (find_none _ _ Ef f Hf) as Hn. cbn beta in Hn.
    rewrite String.eqb_refl in Hn. unfold direct_enum in Hn. rewrite Ht in Hn. discriminate.
Qed.

Lemma setattr_dlift k f v a : k_imm k = false -> NoDup (names k) ->
  In f (k_fields k) -> okv (g_ty f) v -> fieldty k (g_ty f) ->
  setattr p k a (g_name f) (Some (dlift (g_ty f) v))
  = Ok (upd a (g_name f) (Some (lift p (g_ty f) v)))
  \/ (o_enum p = true
      /\ setattr p k a (g_name f) (Some (dlift (g_ty f) v)) = Raise EValueError).
Proof.
  intros Hi Hnd Hf Hv [Hc|(e & Ht & _)].
  - left. rewrite dlift_lift by assumption. apply setattr_field; assumption.
  - destruct (o_enum p) eqn:Ho.
    + unfold setattr. rewrite Hi, Ho, (enum_field_complete k f e Hnd Hf Ht).
      rewrite Ht in *. destruct Hv as [z ->]. cbn [dlift has_value enum_call lift].
      rewrite Ho. destruct (is_member p e z).
      * left. apply base_setattr_field. assumption.
      * right. auto.
    + left. rewrite dlift_lift by (auto; left; assumption). apply setattr_field; assumption.
Qed.

(** Keyword arguments collected from the wire. *)
Definition kw_rel (k : gclass) (fs : list (option value)) (kw : attrs) : Prop :=
  okfs (k_fields k) fs
  /\ (forall n, In n (map fst kw) -> In n (names k))
  /\ forall i g f, nth_error (k_fields k) i = Some g -> nth_error fs i = Some f ->
       match assoc (g_name g) kw with
       | Some x => exists v, f = Some v /\ x = Some (dlift (g_ty g) v)
       | None => f = g_def g
       end.

Lemma map_fst_upd {A} (l : list (string * A)) n v m :
  In m (map fst (upd l n v)) -> m = n \/ In m (map fst l).
Proof.
  induction l as [|[k w] l IH]; cbn [upd map fst]; intros H.
  - destruct H as [H|[]]. auto.
  - destruct (String.eqb_spec n k) as [->|]; cbn [map fst In] in *.
    + tauto.
    + destruct H as [H|H]; [auto|]. destruct (IH H); auto.
Qed.

Lemma kw_put k fs kw i g v : NoDup (names k) -> kw_rel k fs kw ->
  nth_error (k_fields k) i = Some g -> okv (g_ty g) v ->
  kw_rel k (set_nth i (Some v) fs) (upd kw (g_name g) (Some (dlift (g_ty g) v))).
Proof.
  intros Hnd (Ho & Hn & H) Hg Hv. split; [|split].
  - eapply okfs_set; eauto.
  - intros n Hn'. apply map_fst_upd in Hn' as [->|Hn']; [|auto].
    unfold names. apply in_map. eapply nth_error_In; eauto.
  - intros j g' f Hg' Hf. rewrite assoc_upd. rewrite nth_set_nth in Hf.
    destruct (Nat.eqb_spec i j) as [->|Hij].
    + destruct (nth_error fs j); [|discriminate]. injection Hf as <-.
      rewrite Hg' in Hg. injection Hg as ->. rewrite String.eqb_refl. eauto.
    + destruct (String.eqb_spec (g_name g') (g_name g)) as [En|]; [|eapply H; eauto].
      exfalso. apply Hij. unfold names in Hnd. rewrite NoDup_nth_error in Hnd. apply Hnd.
      * rewrite map_length. apply nth_error_Some. congruence.
      * rewrite (map_nth_error g_name i _ Hg), (map_nth_error g_name j _ Hg'). congruence.
Qed.

Lemma kw_start k : typed k -> kw_rel k (map g_def (k_fields k)) [].
Proof.
  intros Ht. split; [apply okfs_fresh; assumption|]. split; [intros n []|].
  intros i g f Hg Hf. cbn [assoc]. rewrite (map_nth_error g_def i _ Hg) in Hf. congruence.
Qed.

Lemma init_fields_dlift k kw : plain k -> forall gs fs a,
  (forall g, In g gs -> In g (k_fields k) /\ fieldty k (g_ty g)) -> length fs = length gs ->
  NoDup (map g_name gs) ->
  (forall g, In g gs -> ~ In (g_name g) (map fst a)) ->
  (forall i g f, nth_error gs i = Some g -> nth_error fs i = Some f ->
     match assoc (g_name g) kw with
     | Some x => exists v, f = Some v /\ x = Some (dlift (g_ty g) v)
     | None => f = g_def g
     end
     /\ match f with Some x => okv (g_ty g) x | None => True end) ->
  init_fields p k gs kw a = Ok (a ++ lift_fields p fs gs)
  \/ (o_enum p = true /\ init_fields p k gs kw a = Raise EValueError).
Proof.
  intros Hp. induction gs as [|g gs IH]; intros [|f fs] a Hin Hl Hnd Hfr Hv;
    try discriminate; cbn [init_fields lift_fields].
  - left. rewrite app_nil_r. reflexivity.
  - destruct (Hin g (or_introl eq_refl)) as [Hg Hty].
    rewrite (esc_plain k g Hp Hg).
    cbn [map] in Hnd. inversion Hnd as [|? ? H1 H2]; subst.
    assert (Hstep : forall o,
      init_field p k g o a = Ok (upd a (g_name g) (option_map (lift p (g_ty g)) f))
      \/ (o_enum p = true /\ init_field p k g o a = Raise EValueError) ->
      (match init_field p k g o a with
       | Ok a' => init_fields p k gs kw a'
       | Raise e => Raise e
       | Diverge => Diverge
       end = Ok (a ++ (g_name g, option_map (lift p (g_ty g)) f) :: lift_fields p fs gs)
       \/ (o_enum p = true /\
          match init_field p k g o a with
          | Ok a' => init_fields p k gs kw a'
          | Raise e => Raise e
          | Diverge => Diverge
          end = Raise EValueError))).
    { intros o [->|[Ho ->]]; [|right; auto].
      rewrite upd_new by (apply Hfr; left; reflexivity).
      destruct (IH fs (a ++ [(g_name g, option_map (lift p (g_ty g)) f)])) as [Hr|Hr].
      - intros; apply Hin; right; assumption.
      - cbn [length] in Hl. lia.
      - assumption.
      - intros g' Hg' Hn. rewrite map_app, in_app_iff in Hn. destruct Hn as [Hn|Hn].
        + apply (Hfr g'); [right|]; assumption.
        + cbn [map fst In] in Hn. destruct Hn as [Hn|[]]. apply H1. rewrite Hn.
          apply in_map. assumption.
      - intros i g' f' Hg' Hf'. apply (Hv (S i)); assumption.
      - left. rewrite Hr. rewrite <- app_assoc. reflexivity.
      - right. assumption. }
    apply Hstep. clear Hstep.
    destruct (Hv O g f eq_refl eq_refl) as [Ha Ho].
    destruct (assoc (g_name g) kw) as [x|].
    + destruct Ha as (v & -> & ->).
      destruct (k_imm k) eqn:Hi.
      * destruct Hty as [Hc|(e & _ & Hx)]; [|congruence].
        left. rewrite dlift_lift by assumption.
        apply (init_field_lift p k g (Some v)); assumption.
      * unfold init_field. rewrite Hi, (esc_plain k g Hp Hg). cbn [option_map].
        apply setattr_dlift; auto. apply Hp.
    + left. rewrite <- Ha. apply init_field_lift; assumption.
Qed.

Lemma construct_kw k fs kw : plain k -> (forall g, In g (k_fields k) -> fieldty k (g_ty g)) ->
  kw_rel k fs kw ->
  construct p k kw = Ok (lift_fields p fs (k_fields k))
  \/ (o_enum p = true /\ construct p k kw = Raise EValueError).
Proof.
  intros Hp Hty ([Hl Ho] & Hn & H). unfold construct.
  replace (forallb _ _) with true.
  - apply (init_fields_dlift k kw Hp (k_fields k) fs []); auto.
    + apply Hp.
    + intros i g f Hg Hf. split; [eapply H; eauto|].
      destruct f; [|exact Logic.I]. eapply Ho; eauto.
  - symmetry. rewrite forallb_forall. intros [n v] Hn'. apply mem_In.
    apply (in_map fst) in Hn'. cbn [fst] in *. apply Hn in Hn'. unfold names in Hn'.
    rewrite in_map_iff in *. destruct Hn' as (g & <- & Hg).
    exists g. split; [|assumption]. apply (esc_plain k); assumption.
Qed.

Section Decode.
Context {X : Type}.
Variable D : dimpl X.

Lemma gs_guard {A B} (R : A -> B -> Prop) (mg : M X B) (m : M X A) :
  gsim R mg m -> gsim R (recursion_guard mg) (recursion_guard m).
Proof.
  intros H s. unfold recursion_guard. destruct (depth s + 1 >? 64); [left; cbn; auto|].
  apply (gs_try p R mg m). assumption.
Qed.
Lemma gs_scope {A B} (R : A -> B -> Prop) (mg : M X B) (m : M X A) :
  gsim R mg m -> gsim R (read_scope D mg) (read_scope D m).
Proof.
  intros H. unfold read_scope. apply gs_bind_eq. intros _. apply gs_try. assumption.
Qed.
Lemma gs_put {A B C} (R : A -> B -> Prop) (o : outcome C) c (mg : C -> M X B) (m : M X A) :
  o = Ok c \/ (o_enum p = true /\ o = Raise EValueError) ->
  gsim R (mg c) m -> gsim R (bind (lift_out o) mg) m.
Proof.
  intros [->|[Ho ->]] H; [exact H|]. intros s. right. auto.
Qed.

Lemma gdecode_sim (rsg : nat -> M X pv) (rs : nat -> M X value) fuel t :
  cty t \/ (exists e td, t = GEnum e td) -> base_leaves t = true ->
  (forall n, gsim (rvalue p (GStruct n)) (rsg n) (rs n)) ->
  gsim (fun v x => x = dlift t v /\ okv t v)
    (gdecode D rsg fuel t) (decodeValue D rs fuel (ety t)).
Proof.
  intros Hc Hb Hrs. induction t as [bt|e td|imm t IH|imm t IH|imm kt IHk vt IHv|n];
    cbn [base_leaves] in Hb.
  - cbn [gdecode ety].
    replace (decodeValue D rs fuel bt) with (decode_base D bt)
      by (destruct bt; try reflexivity; discriminate Hb).
    intros s. left. unfold bind. destruct (decode_base D bt s) as [[v|x|] s1]; cbn; auto.
    split; [reflexivity|]. split; [|exact Logic.I]. destruct v; reflexivity.
  - cbn [gdecode ety decodeValue decode_base]. intros s. left. unfold bind.
    destruct (d_readI32 D s) as [[z|x|] s1]; cbn; auto. split; [reflexivity|]. eauto.
  - assert (Hct : cty t).
    { destruct Hc as [[Hc|Hc]|(? & ? & Hc)]; [left|right|discriminate]; assumption. }
    cbn [gdecode ety decodeValue]. apply gs_bind_eq. intros [et size].
    apply gs_bind_eq. intros _.
    eapply gs_bind with (R := fun l lg => lg = map (lift p t) l).
    + apply gs_repeat; [|reflexivity]. intros a b ->.
      eapply gs_bind; [apply IH; auto|]. intros v x [-> Hv]. apply gs_ret.
      rewrite dlift_lift by assumption. rewrite map_app. reflexivity.
    + intros l lg ->. apply gs_ret. split; [reflexivity|exact Logic.I].
  - assert (Hct : cty t).
    { destruct Hc as [[Hc|Hc]|(? & ? & Hc)]; [left|right|discriminate]; assumption. }
    cbn [gdecode ety decodeValue]. apply gs_bind_eq. intros [et size].
    apply gs_bind_eq. intros _.
    eapply gs_bind with (R := fun l lg => lg = map (lift p t) l /\ Forall (okv t) l).
    + apply gs_repeat; [|split; [reflexivity|constructor]]. intros a b [-> Ha].
      eapply gs_bind; [apply IH; auto|]. intros v x [-> Hv]. apply gs_ret.
      rewrite dlift_lift by assumption. rewrite map_app. split; [reflexivity|].
      apply Forall_app. auto.
    + intros l lg [-> Hl]. change (hashable (ety t)) with (ghashable t).
      replace (match map (lift p t) l with [] => true | _ :: _ => false end)
        with (match l with [] => true | _ :: _ => false end) by (destruct l; reflexivity).
      destruct (ghashable t) eqn:Hh.
      * cbn [orb]. apply gs_ret. split; [|exact Logic.I]. cbn [dlift lift]. f_equal.
        assert (Hgen : forall l acc, Forall (okv t) l -> Forall (okv t) acc ->
          fold_left pset_add (map (lift p t) l) (map (lift p t) acc)
          = map (lift p t) (fold_left set_add l acc)).
        { clear - Hh. induction l as [|x l IH]; intros acc Hl Ha; cbn [map fold_left]; [reflexivity|].
          rewrite pset_add_lift; auto; [|apply (Forall_inv Hl)].
          apply IH; [apply (Forall_inv_tail Hl)|]. apply set_add_ok; [assumption|apply (Forall_inv Hl)]. }
        symmetry. rewrite <- (Hgen l []); auto.
      * destruct l; cbn [orb map]; [|apply gs_raise].
        apply gs_ret. split; [reflexivity|exact Logic.I].
  - apply andb_prop in Hb as [Hbk Hbv].
    assert (Hct : cty kt /\ cty vt).
    { destruct Hc as [[Hc|Hc]|(? & ? & Hc)]; [|cbn [no_enum] in Hc; apply andb_prop in Hc as [H1 H2]|discriminate].
      - split; left; assumption.
      - split; right; assumption. }
    destruct Hct as [Hck Hcv].
    cbn [gdecode ety decodeValue]. apply gs_bind_eq. intros [[k0 v0] size].
    apply gs_bind_eq. intros _.
    eapply gs_bind with (R := fun l lg =>
      lg = map (fun kv => match kv with (k, x) => (lift p kt k, lift p vt x) end) l
      /\ Forall (fun e => okv kt (fst e)) l).
    + apply gs_repeat; [|split; [reflexivity|constructor]]. intros a b [-> Ha].
      eapply gs_bind; [apply IHk; auto|]. intros k x [-> Hk].
      eapply gs_bind; [apply IHv; auto|]. intros v y [-> Hv].
      change (hashable (ety kt)) with (ghashable kt).
      rewrite !dlift_lift by assumption.
      destruct (ghashable kt) eqn:Hh; [|apply gs_raise]. apply gs_ret.
      split; [apply pdict_set_lift; assumption|apply dict_set_ok; assumption].
    + intros l lg [-> _]. apply gs_ret. split; [reflexivity|exact Logic.I].
  - cbn [gdecode ety decodeValue]. apply Hrs.
Qed.

Lemma gdecode_fields_sim (rvg : gty -> M X pv) (rv : ty -> M X value) gs
    (put : string -> pv -> attrs -> outcome attrs)
    (R : list (option value) -> attrs -> Prop) s1 s2 :
  Forall2 (entry_rel gs) s1 s2 ->
  (forall g, In g gs ->
     gsim (fun v x => x = dlift (g_ty g) v /\ okv (g_ty g) v) (rvg (g_ty g)) (rv (ety (g_ty g)))) ->
  (forall acc a i g v, R acc a -> nth_error gs i = Some g -> okv (g_ty g) v ->
     exists a', R (set_nth i (Some v) acc) a'
       /\ (put (g_name g) (dlift (g_ty g) v) a = Ok a'
           \/ (o_enum p = true /\ put (g_name g) (dlift (g_ty g) v) a = Raise EValueError))) ->
  forall fuel skfuel skdepth acc a, R acc a ->
  gsim R (gdecode_fields D fuel skfuel skdepth rvg s1 put a)
         (cread_fields D fuel skfuel skdepth rv s2 acc).
Proof.
  intros Hs Hrv Hput. induction fuel as [|f IH]; intros skfuel skdepth acc a HR;
    cbn [gdecode_fields cread_fields]; [apply gs_diverge|].
  apply gs_bind_eq. intros [type tag].
  destruct (type =? T_STOP); [apply gs_ret; assumption|]. cbv zeta.
  assert (Hagain : gsim R
    (cskip D skfuel skdepth type ;;; gdecode_fields D f skfuel skdepth rvg s1 put a)
    (cskip D skfuel skdepth type ;;; cread_fields D f skfuel skdepth rv s2 acc)).
  { apply gs_bind_eq. intros _. apply IH. assumption. }
  replace (length s1) with (length s2)
    by (clear - Hs; induction Hs; cbn [length]; congruence).
  destruct ((tag <? 0) || (tag >=? Z.of_nat (length s2))); [assumption|].
  assert (He : match nth_error s1 (Z.to_nat tag), nth_error s2 (Z.to_nat tag) with
               | Some e1, Some e2 => entry_rel gs e1 e2
               | None, None => True
               | _, _ => False
               end).
  { generalize (Z.to_nat tag). clear - Hs. induction Hs; intros [|n]; cbn [nth_error]; auto.
    apply IHHs. }
  destruct (nth_error s1 (Z.to_nat tag)) as [e1|], (nth_error s2 (Z.to_nat tag)) as [e2|];
    try contradiction; [|assumption].
  destruct He as [|i g Hg]; [assumption|].
  change (f_ty (fdef g)) with (ety (g_ty g)).
  destruct (negb (code (ety (g_ty g)) =? type)); [assumption|].
  eapply gs_bind; [apply Hrv; eapply nth_error_In; eauto|].
  intros v x [-> Hv].
  destruct (Hput acc a i g v HR Hg Hv) as (a' & HR' & Hp').
  eapply gs_put; [exact Hp'|]. apply IH. assumption.
Qed.

Theorem gdecode_struct_sim : prog_ok p -> c_readable p -> forall dfuel top fuel n,
  gsim (rvalue p (GStruct n)) (gdecode_struct p D top dfuel fuel n)
       (cread_struct D E dfuel fuel n).
Proof.
  intros Hok Hcr. induction dfuel as [|d IH]; intros top fuel n;
    cbn [gdecode_struct cread_struct]; [apply gs_diverge|].
  rewrite erased_nth. destruct (nth_error (p_classes p) n) as [k|] eqn:Ek;
    cbn [option_map]; [|apply gs_raise]. cbv zeta.
  assert (Hk := nth_error_In _ _ Ek).
  destruct (Hok k Hk) as (Hp & _ & Ht).
  assert (Hft : forall g, In g (k_fields k) -> fieldty k (g_ty g))
    by (intros; apply c_readable_field; assumption).
  rewrite fresh_fdef.
  assert (Hrv : forall g, In g (k_fields k) ->
     gsim (fun v x => x = dlift (g_ty g) v /\ okv (g_ty g) v)
       (gdecode D (gdecode_struct p D false d fuel) fuel (g_ty g))
       (decodeValue D (cread_struct D E d fuel) fuel (ety (g_ty g)))).
  { intros g Hg. apply gdecode_sim.
    - destruct (Hft g Hg) as [?|(e & ? & _)]; eauto.
    - apply (proj1 (Ht g Hg)).
    - intros m. apply IH. }
  assert (Hkw : gsim (rvalue p (GStruct n))
    (recursion_guard (read_scope D (
       kw <- gdecode_fields D fuel fuel (S d)
              (gdecode D (gdecode_struct p D false d fuel) fuel) (gspec (k_fields k))
              (fun s v kw => Ok (upd kw s (Some v))) [] ;;
       a <- lift_out (construct p k kw) ;;
       ret (PObj n a))))
    (recursion_guard (read_scope D (
       acc <- cread_fields D fuel fuel (S d) (decodeValue D (cread_struct D E d fuel) fuel)
                (thrift_spec (map fdef (k_fields k))) (map g_def (k_fields k)) ;;
       ret (VStruct n acc))))).
  { apply gs_guard, gs_scope.
    eapply gs_bind with (R := kw_rel k).
    - apply (gdecode_fields_sim _ _ (k_fields k)); auto.
      + apply spec_rel.
      + intros acc a i g v HR Hg Hv. eexists. split; [|left; reflexivity].
        apply kw_put; auto. apply Hp.
      + apply kw_start. assumption.
    - intros acc kw HR. eapply gs_put; [apply (construct_kw k acc kw); auto|].
      apply gs_ret. split; [|exact Logic.I]. rewrite lift_struct, Ek. reflexivity. }
  destruct (if top then k_imm k else own_setattr p k) eqn:Hmode; [exact Hkw|].
  assert (Hi : k_imm k = false).
  { destruct top; [assumption|]. unfold own_setattr in Hmode.
    apply orb_false_elim in Hmode as [? _]. assumption. }
  rewrite construct_default by assumption.
  eapply gs_put; [left; reflexivity|]. cbn beta.
  apply gs_skip.
  { destruct top; [|reflexivity]. apply method_ok; auto; [apply map_length|cbn; tauto]. }
  apply gs_guard, gs_scope.
  eapply gs_bind with (R := fun acc a => a = lift_fields p acc (k_fields k)
                                         /\ okfs (k_fields k) acc).
  - apply (gdecode_fields_sim _ _ (k_fields k)); auto.
    + apply spec_rel.
    + intros acc a i g v [-> Hfs] Hg Hv.
      assert (Hin := nth_error_In _ _ Hg).
      exists (lift_fields p (set_nth i (Some v) acc) (k_fields k)). split.
      * split; [reflexivity|]. eapply okfs_set; eauto.
      * rewrite <- (lift_fields_upd p acc (k_fields k) i g v); [|apply Hp|apply Hfs|assumption].
        apply setattr_dlift; auto. apply Hp.
    + split; [reflexivity|apply okfs_fresh; assumption].
  - intros acc a [-> _]. apply gs_ret. split; [|exact Logic.I].
    rewrite lift_struct, Ek. reflexivity.
Qed.

End Decode.
End Prog.
