(** Facts about the generated classes. *)
From Coq Require Import String.
From Coq Require Import ZArith List Bool Lia.
From Coq Require Import Init.Byte.
From Coq Require Import ZifyBool ZifyNat ZifyN.
From Verif Require Import Base Bytes Utf8 Proto Spec Dynamic Ext ExtRead.
From Verif Require Import GenClass SpecClass.
Import ListNotations.
Open Scope Z_scope.

(** * Names and association lists *)

Lemma mem_In n l : mem n l = true <-> In n l.
Proof.
  unfold mem. rewrite existsb_exists. split.
  - intros (x & H1 & H2). apply String.eqb_eq in H2. subst; assumption.
  - intros H. exists n. rewrite String.eqb_refl. auto.
Qed.
Lemma mem_not n l : mem n l = false <-> ~ In n l.
Proof.
  rewrite <- mem_In. destruct (mem n l); split; intros; try congruence; tauto.
Qed.

Lemma esc_plain k f : plain k -> In f (k_fields k) ->
  maybe_escape_identifier (g_name f) = g_name f.
Proof.
  intros (_ & H & _) Hf. unfold maybe_escape_identifier.
  replace (mem (g_name f) python_keywords_) with false; [reflexivity|].
  symmetry. apply mem_not. apply H. apply in_map. assumption.
Qed.

Lemma assoc_None {A} n (l : list (string * A)) :
  ~ In n (map fst l) -> assoc n l = None.
Proof.
  induction l as [|[m v] l IH]; cbn [assoc map fst]; intros H; [reflexivity|].
  destruct (String.eqb_spec n m) as [->|]; [exfalso; apply H; left; reflexivity|].
  apply IH. intros Hn. apply H. right. assumption.
Qed.

Lemma upd_new {A} (l : list (string * A)) n v :
  ~ In n (map fst l) -> upd l n v = l ++ [(n, v)].
Proof.
  induction l as [|[m w] l IH]; cbn [upd map fst]; intros H; [reflexivity|].
  destruct (String.eqb_spec n m) as [->|]; [exfalso; apply H; left; reflexivity|].
  cbn [app]. f_equal. apply IH. intros Hn. apply H. right. assumption.
Qed.

Lemma assoc_upd {A} (l : list (string * A)) n m v :
  assoc n (upd l m v) = if String.eqb n m then Some v else assoc n l.
Proof.
  induction l as [|[k w] l IH]; cbn [upd assoc].
  - reflexivity.
  - destruct (String.eqb_spec m k) as [->|Hmk]; cbn [assoc].
    + destruct (String.eqb_spec n k); reflexivity.
    + rewrite IH. destruct (String.eqb_spec n k) as [->|Hnk]; [|reflexivity].
      destruct (String.eqb_spec k m) as [->|]; [congruence|reflexivity].
Qed.

Lemma assoc_app {A} n (l1 l2 : list (string * A)) :
  assoc n (l1 ++ l2) = match assoc n l1 with Some v => Some v | None => assoc n l2 end.
Proof.
  induction l1 as [|[m v] l1 IH]; cbn [assoc app]; [reflexivity|].
  destruct (String.eqb n m); [reflexivity|apply IH].
Qed.

Section Prog.
Variable p : gprog.

(** * Lifting *)

Lemma lift_base bt v : lift p (GBase bt) v = PVal v.
Proof. destruct v; reflexivity. Qed.

Lemma lift_struct a n fs : lift p (GStruct a) (VStruct n fs) =
  PObj n match nth_error (p_classes p) n with
         | Some k => lift_fields p fs (k_fields k)
         | None => []
         end.
Proof.
  cbn [lift]. destruct (nth_error (p_classes p) n); reflexivity.
Qed.

Lemma lift_fields_names fs : forall gs, length fs = length gs ->
  map fst (lift_fields p fs gs) = map g_name gs.
Proof.
  induction fs as [|f fs IH]; intros [|g gs] H; try discriminate; [reflexivity|].
  cbn [lift_fields map fst]. f_equal. apply IH. cbn [length] in H. lia.
Qed.

Lemma lift_fields_assoc fs : forall gs i g f, NoDup (map g_name gs) ->
  nth_error gs i = Some g -> nth_error fs i = Some f ->
  assoc (g_name g) (lift_fields p fs gs) = Some (option_map (lift p (g_ty g)) f).
Proof.
  induction fs as [|f0 fs IH]; intros [|g0 gs] [|i] g f Hnd Hg Hf;
    try discriminate; cbn [nth_error] in *.
  - injection Hg as ->. injection Hf as ->. cbn [lift_fields assoc].
    rewrite String.eqb_refl. reflexivity.
  - cbn [lift_fields assoc map] in *. inversion Hnd as [|? ? H1 H2]; subst.
    destruct (String.eqb_spec (g_name g) (g_name g0)) as [E|].
    + exfalso. apply H1. rewrite <- E. apply in_map. eapply nth_error_In; eauto.
    + apply (IH gs i); assumption.
Qed.

Lemma lift_fields_upd fs : forall gs i g v, NoDup (map g_name gs) ->
  length fs = length gs -> nth_error gs i = Some g ->
  upd (lift_fields p fs gs) (g_name g) (Some (lift p (g_ty g) v))
  = lift_fields p (set_nth i (Some v) fs) gs.
Proof.
  induction fs as [|f0 fs IH]; intros [|g0 gs] [|i] g v Hnd Hl Hg;
    try discriminate; cbn [nth_error] in *.
  - injection Hg as ->. cbn [lift_fields upd set_nth].
    rewrite String.eqb_refl. reflexivity.
  - cbn [lift_fields upd map set_nth] in *. inversion Hnd as [|? ? H1 H2]; subst.
    destruct (String.eqb_spec (g_name g) (g_name g0)) as [E|].
    + exfalso. apply H1. rewrite <- E. apply in_map. eapply nth_error_In; eauto.
    + f_equal. apply IH; auto.
Qed.

(** The value of an enum field is an integer. *)
Definition okv (t : gty) (v : value) : Prop :=
  match t with GEnum _ _ => exists z, v = VInt z | _ => True end.

Definition okfs (gs : list gfield) (fs : list (option value)) : Prop :=
  length fs = length gs
  /\ forall i g v, nth_error gs i = Some g -> nth_error fs i = Some (Some v) ->
       okv (g_ty g) v.

Lemma okv_base t v : ghashable t = true -> okv t v -> base_of (lift p t v) = v.
Proof.
  destruct t; unfold ghashable; cbn [ety hashable]; intros H Hv; try discriminate.
  - rewrite lift_base. reflexivity.
  - destruct Hv as [z ->]. cbn [lift]. destruct (o_enum p); reflexivity.
Qed.

Lemma has_value_enum e v : o_enum p = true -> okv (GEnum e false) v ->
  has_value (lift p (GEnum e false) v) = true.
Proof. intros H [z ->]. cbn [lift]. rewrite H. reflexivity. Qed.

(** * Attributes of lifted objects *)

Lemma base_setattr_field k a f v : In f (k_fields k) ->
  base_setattr p k a (g_name f) v = Ok (upd a (g_name f) v).
Proof.
  intros H. unfold base_setattr.
  replace (in_slots k (g_name f)) with true.
  2:{ symmetry. apply mem_In. apply in_map. assumption. }
  rewrite andb_false_r. reflexivity.
Qed.

Lemma enum_field_In k f e : NoDup (names k) -> In f (k_fields k) ->
  enum_field k (g_name f) = Some e -> g_ty f = GEnum e false.
Proof.
  intros Hnd Hf. unfold enum_field.
  destruct (find _ _) as [f'|] eqn:E; [|discriminate].
  apply find_some in E as [Hf' E]. apply andb_prop in E as [En Ed].
  apply String.eqb_eq in En. intros Hd.
  assert (f' = f).
  { revert Hnd Hf Hf' En. unfold names. clear. generalize (k_fields k).
    induction l as [|g l IH]; cbn [map]; intros Hnd Hf Hf' En; [destruct Hf|].
    inversion Hnd as [|? ? H1 H2]; subst.
    destruct Hf as [->|Hf]; destruct Hf' as [->|Hf']; auto.
    - exfalso. apply H1. rewrite En. apply in_map. assumption.
    - exfalso. apply H1. rewrite <- En. apply in_map. assumption. }
  subst f'. unfold direct_enum in Hd. destruct (g_ty f) as [|e' [|]| | | |]; try discriminate.
  injection Hd as ->. reflexivity.
Qed.

Lemma setattr_field k f v a : k_imm k = false -> NoDup (names k) ->
  In f (k_fields k) -> okv (g_ty f) v ->
  setattr p k a (g_name f) (Some (lift p (g_ty f) v))
  = Ok (upd a (g_name f) (Some (lift p (g_ty f) v))).
Proof.
  intros Hi Hnd Hf Hv. unfold setattr. rewrite Hi.
  destruct (o_enum p) eqn:Ho; [|apply base_setattr_field; assumption].
  destruct (enum_field k (g_name f)) as [e|] eqn:E; [|apply base_setattr_field; assumption].
  assert (Ht := enum_field_In k f e Hnd Hf E). rewrite Ht in *.
  rewrite has_value_enum by assumption. apply base_setattr_field. assumption.
Qed.

Lemma setattr_none k f a : k_imm k = false -> In f (k_fields k) ->
  setattr p k a (g_name f) None = Ok (upd a (g_name f) None).
Proof.
  intros Hi Hf. unfold setattr. rewrite Hi.
  destruct (o_enum p); [|apply base_setattr_field; assumption].
  destruct (enum_field k (g_name f)); apply base_setattr_field; assumption.
Qed.

Lemma init_field_lift k f v a : plain k -> In f (k_fields k) ->
  match v with Some x => okv (g_ty f) x | None => True end ->
  init_field p k f (option_map (lift p (g_ty f)) v) a
  = Ok (upd a (g_name f) (option_map (lift p (g_ty f)) v)).
Proof.
  intros Hp Hf Hv. unfold init_field.
  destruct (k_imm k) eqn:Hi.
  - destruct (if o_enum p then direct_enum f else None) as [e|] eqn:E;
      [|apply base_setattr_field; assumption].
    destruct (o_enum p) eqn:Ho; [|discriminate].
    unfold direct_enum in E. destruct (g_ty f) as [|e' [|]| | | |]; try discriminate.
    injection E as ->.
    destruct v as [x|]; cbn [option_map]; [|apply base_setattr_field; assumption].
    rewrite has_value_enum by assumption. apply base_setattr_field. assumption.
  - rewrite (esc_plain k f Hp Hf). destruct Hp as (Hnd & _).
    destruct v as [x|]; cbn [option_map].
    + apply setattr_field; assumption.
    + apply setattr_none; assumption.
Qed.

(** [init_fields] with the value of each field known. *)
Lemma init_fields_lift k kw : plain k -> forall gs fs a,
  (forall g, In g gs -> In g (k_fields k)) -> length fs = length gs ->
  NoDup (map g_name gs) ->
  (forall g, In g gs -> ~ In (g_name g) (map fst a)) ->
  (forall i g f, nth_error gs i = Some g -> nth_error fs i = Some f ->
     match assoc (g_name g) kw with
     | Some v => v
     | None => option_map (lift p (g_ty g)) (g_def g)
     end = option_map (lift p (g_ty g)) f
     /\ match f with Some x => okv (g_ty g) x | None => True end) ->
  init_fields p k gs kw a = Ok (a ++ lift_fields p fs gs).
Proof.
  intros Hp. induction gs as [|g gs IH]; intros [|f fs] a Hin Hl Hnd Hfr Hv;
    try discriminate; cbn [init_fields lift_fields].
  - rewrite app_nil_r. reflexivity.
  - assert (Hg := Hin g (or_introl eq_refl)).
    rewrite (esc_plain k g Hp Hg).
    destruct (Hv O g f eq_refl eq_refl) as [-> Ho].
    rewrite init_field_lift by assumption.
    rewrite upd_new by (apply Hfr; left; reflexivity).
    cbn [map] in Hnd. inversion Hnd as [|? ? H1 H2]; subst.
    rewrite (IH fs).
    + rewrite <- app_assoc. reflexivity.
    + intros; apply Hin; right; assumption.
    + cbn [length] in Hl. lia.
    + assumption.
    + intros g' Hg' Hn. rewrite map_app, in_app_iff in Hn. destruct Hn as [Hn|Hn].
      * apply (Hfr g'); [right|]; assumption.
      * cbn [map fst In] in Hn. destruct Hn as [Hn|[]]. apply H1. rewrite Hn.
        apply in_map. assumption.
    + intros i g' f' Hg' Hf'. apply (Hv (S i)); assumption.
Qed.

Lemma construct_default k : plain k -> typed k ->
  construct p k [] = Ok (lift_fields p (map g_def (k_fields k)) (k_fields k)).
Proof.
  intros Hp Ht. unfold construct. cbn [forallb].
  rewrite (init_fields_lift k [] Hp _ (map g_def (k_fields k))); auto.
  - apply map_length.
  - apply Hp.
  - intros i g f Hg Hf. cbn [assoc].
    rewrite (map_nth_error g_def i _ Hg) in Hf. injection Hf as <-. split; [reflexivity|].
    destruct (Ht g (nth_error_In _ _ Hg)) as [_ Hd].
    destruct (g_def g); [|exact Logic.I]. unfold okv. destruct (g_ty g); auto.
Qed.

Lemma construct_lift k fs : plain k -> okfs (k_fields k) fs ->
  construct p k (lift_fields p fs (k_fields k)) = Ok (lift_fields p fs (k_fields k)).
Proof.
  intros Hp [Hl Ho]. unfold construct.
  replace (forallb _ _) with true.
  - rewrite (init_fields_lift k _ Hp _ fs); auto; [apply Hp|].
    intros i g f Hg Hf. rewrite (lift_fields_assoc fs _ i g f); auto.
    + split; [reflexivity|]. destruct f; [|exact Logic.I]. eapply Ho; eauto.
    + apply Hp.
  - symmetry. rewrite forallb_forall. intros [n v] Hn. apply mem_In.
    apply (in_map fst) in Hn. rewrite lift_fields_names in Hn by assumption.
    cbn [fst] in *. rewrite in_map_iff in *. destruct Hn as (g & <- & Hg).
    exists g. split; [|assumption]. apply (esc_plain k); assumption.
Qed.

(** * Fields by id *)

Lemma find_field_map gs fid :
  match find_field (map fdef gs) fid with
  | Some (i, d) => exists g, gfind gs fid = Some g /\ nth_error gs i = Some g /\ d = fdef g
  | None => gfind gs fid = None
  end.
Proof.
  induction gs as [|g gs IH]; cbn [map find_field gfind]; [reflexivity|].
  change (f_id (fdef g)) with (g_id g).
  destruct (fid =? g_id g).
  - exists g. auto.
  - destruct (find_field (map fdef gs) fid) as [[i d]|].
    + destruct IH as (g' & H1 & H2 & H3). exists g'. auto.
    + exact IH.
Qed.

Lemma nth_set_nth {A} i (a : A) l : forall j,
  nth_error (set_nth i a l) j
  = if (i =? j)%nat then match nth_error l j with Some _ => Some a | None => None end
    else nth_error l j.
Proof.
  revert i. induction l as [|x l IH]; intros [|i] [|j]; cbn [set_nth nth_error Nat.eqb];
    try reflexivity.
  - destruct (i =? j)%nat; reflexivity.
  - apply IH.
Qed.
Lemma set_nth_len {A} i (a : A) l : length (set_nth i a l) = length l.
Proof. revert i. induction l; intros [|i]; cbn [set_nth length]; congruence. Qed.

Lemma okfs_set gs fs i g v : okfs gs fs -> nth_error gs i = Some g -> okv (g_ty g) v ->
  okfs gs (set_nth i (Some v) fs).
Proof.
  intros [Hl Ho] Hg Hv. split; [rewrite set_nth_len; assumption|].
  intros j g' v' Hg' Hv'. rewrite nth_set_nth in Hv'.
  destruct (Nat.eqb_spec i j) as [->|].
  - destruct (nth_error fs j); [|discriminate]. injection Hv' as <-.
    rewrite Hg' in Hg. injection Hg as ->. assumption.
  - eapply Ho; eauto.
Qed.

(** * Local variables of an immutable class's [read] *)

Definition locals_rel (gs : list gfield) (fs : list (option value)) (env : attrs) : Prop :=
  okfs gs fs
  /\ forall i g f, nth_error gs i = Some g -> nth_error fs i = Some f ->
       assoc (g_name g) env = Some (option_map (lift p (g_ty g)) f).

Lemma locals_kw_rel k fs env : plain k -> locals_rel (k_fields k) fs env ->
  locals_kw (k_fields k) env = lift_fields p fs (k_fields k).
Proof.
  intros Hp [[Hl _] H]. unfold locals_kw.
  assert (He : forall g, In g (k_fields k) -> maybe_escape_identifier (g_name g) = g_name g)
    by (intros; eapply esc_plain; eauto).
  revert fs Hl H He. generalize (k_fields k).
  induction l as [|g gs IH]; intros [|f fs] Hl H He; try discriminate; [reflexivity|].
  cbn [map lift_fields]. rewrite He by (left; reflexivity). cbv zeta.
  rewrite (H O g f eq_refl eq_refl). f_equal.
  apply IH.
  - cbn [length] in Hl. lia.
  - intros i g' f' Hg' Hf'. apply (H (S i)); assumption.
  - intros; apply He; right; assumption.
Qed.

Lemma locals_init k : plain k -> typed k ->
  locals_rel (k_fields k) (map g_def (k_fields k)) (init_locals p (k_fields k)).
Proof.
  intros Hp Ht. split.
  - split; [apply map_length|]. intros i g v Hg Hv.
    rewrite (map_nth_error g_def i _ Hg) in Hv. injection Hv as Hv.
    destruct (Ht g (nth_error_In _ _ Hg)) as [_ Hd]. rewrite Hv in Hd.
    unfold okv. destruct (g_ty g); auto.
  - intros i g f Hg Hf. rewrite (map_nth_error g_def i _ Hg) in Hf. injection Hf as <-.
    assert (He : forall g, In g (k_fields k) -> maybe_escape_identifier (g_name g) = g_name g)
      by (intros; eapply esc_plain; eauto).
    destruct Hp as (Hnd & _). unfold names in Hnd. unfold init_locals.
    assert (Hgen : forall l a, NoDup (map g_name l) ->
      (forall g, In g l -> maybe_escape_identifier (g_name g) = g_name g) ->
      assoc (g_name g)
        (fold_left (fun env f => upd env (maybe_escape_identifier (g_name f))
                                   (option_map (lift p (g_ty f)) (g_def f))) l a)
      = match find (fun f => String.eqb (g_name g) (g_name f)) l with
        | Some f => Some (option_map (lift p (g_ty f)) (g_def f))
        | None => assoc (g_name g) a
        end).
    { clear. induction l as [|h l IH]; intros a Hnd He; cbn [fold_left find]; [reflexivity|].
      cbn [map] in Hnd. inversion Hnd as [|? ? H1 H2]; subst.
      rewrite IH by (auto; intros; apply He; right; assumption).
      rewrite assoc_upd, He by (left; reflexivity).
      destruct (String.eqb_spec (g_name g) (g_name h)) as [E|]; [|reflexivity].
      replace (find _ l) with (@None gfield); [reflexivity|].
      symmetry. destruct (find _ l) as [f|] eqn:Ef; [|reflexivity].
      apply find_some in Ef as [Hf Ef]. apply String.eqb_eq in Ef.
      exfalso. apply H1. rewrite <- E, Ef. apply in_map. assumption. }
    rewrite Hgen by assumption.
    replace (find _ (k_fields k)) with (Some g); [reflexivity|].
    symmetry. clear Hgen He Ht. revert i Hg Hnd. generalize (k_fields k).
    induction l as [|h l IH]; intros [|i] Hg Hnd; try discriminate; cbn [nth_error find map] in *.
    + injection Hg as ->. rewrite String.eqb_refl. reflexivity.
    + inversion Hnd as [|? ? H1 H2]; subst.
      destruct (String.eqb_spec (g_name g) (g_name h)) as [E|]; [|apply (IH i); assumption].
      exfalso. apply H1. rewrite <- E. apply in_map. eapply nth_error_In; eauto.
Qed.

Lemma locals_header k fs env ft fid : unhidden p k -> k_imm k = true ->
  locals_rel (k_fields k) fs env ->
  locals_rel (k_fields k) fs (bind_header env ft fid).
Proof.
  intros Hu Hi [Ho H]. split; [assumption|]. intros i g f Hg Hf.
  unfold bind_header. rewrite !assoc_upd.
  assert (Hn := Hu Hi (g_name g) (in_map g_name _ _ (nth_error_In _ _ Hg))).
  destruct (String.eqb_spec (g_name g) "fid") as [E|]; [exfalso; apply Hn; rewrite E; cbn; tauto|].
  destruct (String.eqb_spec (g_name g) "ftype") as [E|]; [exfalso; apply Hn; rewrite E; cbn; tauto|].
  destruct (String.eqb_spec (g_name g) "fname") as [E|]; [exfalso; apply Hn; rewrite E; cbn; tauto|].
  eapply H; eauto.
Qed.

Lemma locals_put k fs env i g v : plain k ->
  locals_rel (k_fields k) fs env -> nth_error (k_fields k) i = Some g ->
  okv (g_ty g) v ->
  locals_rel (k_fields k) (set_nth i (Some v) fs)
    (upd env (maybe_escape_identifier (g_name g)) (Some (lift p (g_ty g) v))).
Proof.
  intros Hp [Ho H] Hg Hv.
  rewrite (esc_plain k g Hp (nth_error_In _ _ Hg)).
  split; [eapply okfs_set; eauto|]. intros j g' f Hg' Hf.
  rewrite assoc_upd. rewrite nth_set_nth in Hf.
  destruct (Nat.eqb_spec i j) as [->|Hij].
  - destruct (nth_error fs j); [|discriminate]. injection Hf as <-.
    rewrite Hg' in Hg. injection Hg as ->. rewrite String.eqb_refl. reflexivity.
  - destruct (String.eqb_spec (g_name g') (g_name g)) as [E|]; [|eapply H; eauto].
    exfalso. apply Hij. destruct Hp as (Hnd & _). unfold names in Hnd.
    rewrite NoDup_nth_error in Hnd. apply Hnd.
    + rewrite map_length. apply nth_error_Some. congruence.
    + rewrite (map_nth_error g_name i _ Hg), (map_nth_error g_name j _ Hg'). congruence.
Qed.

(** * Reading: the generated code against the plain model *)

Section Sim.
Context {X : Type}.

(** The two computations do the same, up to [R] between their results; or the
    generated code raises ValueError, which takes the [enum] option. *)
Definition gsim {A B} (R : A -> B -> Prop) (mg : M X B) (m : M X A) : Prop :=
  forall s,
    (snd (mg s) = snd (m s)
     /\ match fst (m s), fst (mg s) with
        | Ok a, Ok b => R a b
        | Raise e, Raise e' => e = e'
        | Diverge, Diverge => True
        | _, _ => False
        end)
    \/ (o_enum p = true /\ fst (mg s) = Raise EValueError).

Lemma gs_ret {A B} (R : A -> B -> Prop) a b : R a b -> gsim R (ret b) (ret a).
Proof. intros H s. left. cbn. auto. Qed.
Lemma gs_raise {A B} (R : A -> B -> Prop) e : gsim R (raise e) (raise e).
Proof. intros s. left. cbn. auto. Qed.
Lemma gs_diverge {A B} (R : A -> B -> Prop) : gsim R diverge diverge.
Proof. intros s. left. cbn. auto. Qed.
Lemma gs_refl {A} (m : M X A) : gsim eq m m.
Proof. intros s. left. split; [reflexivity|]. destruct (fst (m s)); auto. Qed.
Lemma gs_bind {A B A' B'} (R : A -> B -> Prop) (R' : A' -> B' -> Prop)
    (mg : M X B) (m : M X A) (kg : B -> M X B') (k : A -> M X A') :
  gsim R mg m -> (forall a b, R a b -> gsim R' (kg b) (k a)) ->
  gsim R' (bind mg kg) (bind m k).
Proof.
  intros H Hk s. unfold bind. specialize (H s).
  destruct (mg s) as [og sg], (m s) as [o s1]. cbn [fst snd] in H.
  destruct H as [[-> H]|[He H]].
  - destruct o as [a|e|], og as [b|e'|]; try contradiction.
    + exact (Hk a b H s1).
    + left. cbn. auto.
    + left. cbn. auto.
  - right. split; [assumption|]. rewrite H. reflexivity.
Qed.
Lemma gs_ok {A B} (R : A -> B -> Prop) (mg : M X B) (m : M X A) :
  (forall s, mg s = mg s) -> gsim R mg m -> gsim R mg m.
Proof. auto. Qed.
(** A step of the generated code that does nothing. *)
Lemma gs_skip {A B} (R : A -> B -> Prop) (u : M X unit) (mg : M X B) (m : M X A) :
  u = ret tt -> gsim R mg m -> gsim R (u ;;; mg) m.
Proof. intros -> H. exact H. Qed.
Lemma gs_try {A B} (R : A -> B -> Prop) (mg : M X B) (m : M X A) fin :
  gsim R mg m -> gsim R (try_finally mg fin) (try_finally m fin).
Proof.
  intros H s. unfold try_finally. specialize (H s).
  destruct (mg s) as [og sg], (m s) as [o s1]. cbn [fst snd] in *.
  destruct H as [[-> H]|H]; auto.
Qed.
Lemma gs_depth {A B} (R : A -> B -> Prop) (mg : M X B) (m : M X A) :
  gsim R mg m -> gsim R (with_depth mg) (with_depth m).
Proof.
  intros H. unfold with_depth. eapply gs_bind; [apply gs_refl|].
  intros. apply gs_try. assumption.
Qed.
Lemma gs_repeat {A B} (R : A -> B -> Prop) fuel : forall n (fg : B -> M X B) (f : A -> M X A) a b,
  (forall a b, R a b -> gsim R (fg b) (f a)) -> R a b ->
  gsim R (repeatM fuel n fg b) (repeatM fuel n f a).
Proof.
  induction fuel as [|k IH]; intros n fg f a b Hf Hab; cbn [repeatM].
  - destruct (n <=? 0); [apply gs_ret; assumption|apply gs_diverge].
  - destruct (n <=? 0); [apply gs_ret; assumption|].
    eapply gs_bind; [apply Hf, Hab|]. intros. apply IH; assumption.
Qed.

Lemma gs_bind_eq {A A' B'} (R' : A' -> B' -> Prop)
    (m : M X A) (kg : A -> M X B') (k : A -> M X A') :
  (forall a, gsim R' (kg a) (k a)) -> gsim R' (bind m kg) (bind m k).
Proof. intros Hk. eapply gs_bind; [apply gs_refl|]. intros a b <-. apply Hk. Qed.

Variable P : proto X.

Lemma use_ok sh n e : ~ In n sh -> @use X sh n e = ret tt.
Proof. intros H. unfold use. rewrite (proj2 (mem_not n sh) H). reflexivity. Qed.

Definition rvalue (t : gty) (v : value) (x : pv) : Prop := x = lift p t v /\ okv t v.

Lemma pset_add_lift t acc v : ghashable t = true -> Forall (okv t) acc -> okv t v ->
  pset_add (map (lift p t) acc) (lift p t v) = map (lift p t) (set_add acc v).
Proof.
  intros Hh Hacc Hv. unfold pset_add, set_add.
  replace (existsb (pkey_eqb (lift p t v)) (map (lift p t) acc))
    with (existsb (key_eqb v) acc).
  - destruct (existsb (key_eqb v) acc); [reflexivity|]. rewrite map_app. reflexivity.
  - induction Hacc as [|x l Hx _ IH]; cbn [existsb map]; [reflexivity|].
    rewrite IH. f_equal. unfold pkey_eqb. rewrite !okv_base by assumption. reflexivity.
Qed.

Lemma pdict_set_lift kt vt acc k v : ghashable kt = true ->
  Forall (fun e => okv kt (fst e)) acc -> okv kt k ->
  pdict_set (map (fun kv => match kv with (k, x) => (lift p kt k, lift p vt x) end) acc)
    (lift p kt k) (lift p vt v)
  = map (fun kv => match kv with (k, x) => (lift p kt k, lift p vt x) end) (dict_set acc k v).
Proof.
  intros Hh Hacc Hk. induction Hacc as [|[k' v'] l Hx _ IH];
    cbn [pdict_set map dict_set]; [reflexivity|].
  unfold pkey_eqb at 1. cbn [fst] in Hx. rewrite !okv_base by assumption.
  destruct (key_eqb k k'); cbn [map]; [reflexivity|]. rewrite IH. reflexivity.
Qed.

Lemma set_add_ok t acc v : Forall (okv t) acc -> okv t v -> Forall (okv t) (set_add acc v).
Proof.
  intros H Hv. unfold set_add. destruct (existsb _ _); [assumption|].
  apply Forall_app. auto.
Qed.
Lemma dict_set_ok kt (acc : list (value * value)) k v :
  Forall (fun e => okv kt (fst e)) acc -> okv kt k ->
  Forall (fun e => okv kt (fst e)) (dict_set acc k v).
Proof.
  intros H Hk. induction H as [|[k' v'] l Hx Hl IH]; cbn [dict_set].
  - constructor; auto.
  - destruct (key_eqb k k'); constructor; auto.
Qed.

(** What [gread_ty] needs of the names assigned to in the body around it. *)
Definition sh_ok (sh : list string) : Prop :=
  forall n, In n sh -> ~ In n (body_names p).

Lemma sh_use sh n e : sh_ok sh -> In n (body_names p) -> @use X sh n e = ret tt.
Proof. intros H Hn. apply use_ok. intros Hs. exact (H n Hs Hn). Qed.

Lemma enum_name_in e : In (enum_name p e) (body_names p).
Proof.
  unfold enum_name, body_names. rewrite !in_app_iff.
  destruct (nth_error (p_enums p) e) as [d|] eqn:E.
  - right. left. apply in_map. eapply nth_error_In; eauto.
  - left. cbn. tauto.
Qed.
Lemma class_name_in n : In (class_name p n) (body_names p).
Proof.
  unfold class_name, body_names. rewrite !in_app_iff.
  destruct (nth_error (p_classes p) n) as [d|] eqn:E.
  - right. right. apply in_map. eapply nth_error_In; eauto.
  - left. cbn. tauto.
Qed.

Ltac inb := unfold body_names; rewrite !in_app_iff; left; cbn; tauto.

Lemma gread_ty_sim sh (rsg rs : nat -> M X _) fuel t : sh_ok sh ->
  base_leaves t = true ->
  (forall n, gsim (rvalue (GStruct n)) (rsg n) (rs n)) ->
  gsim (rvalue t) (gread_ty p P sh rsg fuel t) (read_ty P rs fuel (ety t)).
Proof.
  intros Hsh Hb Hrs. induction t as [bt|e td|imm t IH|imm t IH|imm kt IHk vt IHv|n];
    cbn [base_leaves] in Hb.
  - cbn [gread_ty ety].
    replace (read_ty P rs fuel bt) with (read_base P bt)
      by (destruct bt; try reflexivity; discriminate Hb).
    apply gs_skip.
    { destruct bt; try reflexivity. apply sh_use; [assumption|inb]. }
    replace (read_base P bt) with (read_base P bt) by reflexivity.
    intros s. left. unfold bind.
    destruct (read_base P bt s) as [[v|x|] s1]; cbn; auto.
    split; [reflexivity|]. split; [|exact Logic.I]. rewrite lift_base. reflexivity.
  - cbn [gread_ty ety read_ty read_base].
    apply gs_bind_eq. intros z. destruct (o_enum p) eqn:Ho.
    + apply gs_skip; [apply sh_use; [assumption|apply enum_name_in]|].
      cbn [enum_call]. destruct (is_member p e z).
      * apply gs_ret. split; [|cbn; eauto]. cbn [lift]. rewrite Ho. reflexivity.
      * intros s. right. auto.
    + apply gs_ret. split; [|cbn; eauto]. cbn [lift]. rewrite Ho. reflexivity.
  - cbn [gread_ty ety read_ty]. apply gs_bind_eq. intros [et size].
    apply gs_skip; [apply sh_use; [assumption|inb]|].
    eapply gs_bind with (R := fun l lg => lg = map (lift p t) l).
    + apply gs_repeat; [|reflexivity]. intros a b ->.
      eapply gs_bind; [apply IH, Hb|]. intros v x [-> _]. apply gs_ret.
      rewrite map_app. reflexivity.
    + intros l lg ->. apply gs_skip.
      { destruct imm; [apply sh_use; [assumption|inb]|reflexivity]. }
      apply gs_bind_eq. intros _. apply gs_ret. split; [reflexivity|exact Logic.I].
  - cbn [gread_ty ety read_ty]. apply gs_skip; [apply sh_use; [assumption|inb]|].
    apply gs_bind_eq. intros [et size].
    apply gs_skip; [apply sh_use; [assumption|inb]|].
    eapply gs_bind with (R := fun l lg => lg = map (lift p t) l /\ Forall (okv t) l).
    + apply gs_repeat; [|split; [reflexivity|constructor]]. intros a b [-> Ha].
      eapply gs_bind; [apply IH, Hb|]. intros v x [-> Hv].
      change (hashable (ety t)) with (ghashable t).
      destruct (ghashable t) eqn:Hh; [|apply gs_raise]. apply gs_ret.
      split; [apply pset_add_lift; assumption|apply set_add_ok; assumption].
    + intros l lg [-> _]. apply gs_bind_eq. intros _. apply gs_skip.
      { destruct imm; [apply sh_use; [assumption|inb]|reflexivity]. }
      apply gs_ret. split; [reflexivity|exact Logic.I].
  - apply andb_prop in Hb as [Hbk Hbv].
    cbn [gread_ty ety read_ty]. apply gs_bind_eq. intros [[k0 v0] size].
    apply gs_skip; [apply sh_use; [assumption|inb]|].
    eapply gs_bind with (R := fun l lg =>
      lg = map (fun kv => match kv with (k, x) => (lift p kt k, lift p vt x) end) l
      /\ Forall (fun e => okv kt (fst e)) l).
    + apply gs_repeat; [|split; [reflexivity|constructor]]. intros a b [-> Ha].
      eapply gs_bind; [apply IHk, Hbk|]. intros k x [-> Hk].
      eapply gs_bind; [apply IHv, Hbv|]. intros v y [-> Hv].
      change (hashable (ety kt)) with (ghashable kt).
      destruct (ghashable kt) eqn:Hh; [|apply gs_raise]. apply gs_ret.
      split; [apply pdict_set_lift; assumption|apply dict_set_ok; assumption].
    + intros l lg [-> _]. apply gs_bind_eq. intros _. apply gs_skip.
      { destruct imm; [apply sh_use; [assumption|inb]|reflexivity]. }
      apply gs_ret. split; [reflexivity|exact Logic.I].
  - cbn [gread_ty ety read_ty]. apply gs_skip; [|apply Hrs].
    apply sh_use; [assumption|apply class_name_in].
Qed.

Lemma gread_fields_sim {A} sh (rvg : gty -> M X pv) (rv : ty -> M X value) gs
    (begin : A -> Z -> Z -> A) (put : gfield -> pv -> A -> outcome A)
    (R : list (option value) -> A -> Prop) :
  sh_ok sh ->
  (forall g, In g gs -> gsim (rvalue (g_ty g)) (rvg (g_ty g)) (rv (ety (g_ty g)))) ->
  (forall acc a ft fid, R acc a -> R acc (begin a ft fid)) ->
  (forall acc a i g v, R acc a -> nth_error gs i = Some g -> okv (g_ty g) v ->
     exists a', put g (lift p (g_ty g) v) a = Ok a' /\ R (set_nth i (Some v) acc) a') ->
  forall fuel skfuel acc a, R acc a ->
  gsim R (gread_fields P fuel skfuel sh rvg gs begin put a)
         (read_fields P fuel skfuel rv (map fdef gs) acc).
Proof.
  intros Hsh Hrv Hbeg Hput. induction fuel as [|f IH]; intros skfuel acc a HR;
    cbn [gread_fields read_fields]; [apply gs_diverge|].
  apply gs_skip; [apply sh_use; [assumption|inb]|].
  apply gs_bind_eq. intros [ftype fid].
  apply gs_skip; [apply sh_use; [assumption|inb]|]. cbv zeta.
  assert (HR' := Hbeg acc a ftype fid HR).
  destruct (ftype =? T_STOP); [apply gs_ret; assumption|].
  pose proof (find_field_map gs fid) as Hf.
  destruct (find_field (map fdef gs) fid) as [[i d]|].
  - destruct Hf as (g & -> & Hg & ->).
    change (f_ty (fdef g)) with (ety (g_ty g)).
    destruct (ftype =? code (ety (g_ty g))).
    + eapply gs_bind; [apply Hrv; eapply nth_error_In; eauto|].
      intros v x [-> Hv].
      destruct (Hput acc (begin a ftype fid) i g v HR' Hg Hv) as (a' & -> & HR2).
      cbn [lift_out].
      apply gs_skip with (u := ret tt); [reflexivity|].
      change (gsim R ((ret tt ;;; (readFieldEnd P ;;;
         gread_fields P f skfuel sh rvg gs begin put a')))
         (readFieldEnd P ;;; read_fields P f skfuel rv (map fdef gs) (set_nth i (Some v) acc))).
      apply gs_skip; [reflexivity|]. apply gs_bind_eq. intros _. apply IH. assumption.
    + apply gs_bind_eq. intros _. apply gs_bind_eq. intros _. apply IH. assumption.
  - rewrite Hf. apply gs_bind_eq. intros _. apply gs_bind_eq. intros _. apply IH. assumption.
Qed.

Lemma erased_nth n : nth_error (erased p) n =
  option_map (fun k => map fdef (k_fields k)) (nth_error (p_classes p) n).
Proof.
  unfold erased. destruct (nth_error (p_classes p) n) as [k|] eqn:E; cbn [option_map].
  - rewrite (map_nth_error _ _ _ E). reflexivity.
  - apply nth_error_None. rewrite map_length. apply nth_error_None. assumption.
Qed.

Lemma fresh_fdef gs : fresh (map fdef gs) = map g_def gs.
Proof. unfold fresh. rewrite map_map. reflexivity. Qed.

Lemma okfs_fresh k : typed k -> okfs (k_fields k) (map g_def (k_fields k)).
Proof.
  intros Ht. split; [apply map_length|]. intros i g v Hg Hv.
  rewrite (map_nth_error g_def i _ Hg) in Hv. injection Hv as Hv.
  destruct (Ht g (nth_error_In _ _ Hg)) as [_ Hd]. rewrite Hv in Hd.
  unfold okv. destruct (g_ty g); auto.
Qed.

Lemma method_ok {S} k fs m : plain k -> length fs = length (k_fields k) ->
  In m ["read"; "write"; "validate"]%string ->
  @method S (lift_fields p fs (k_fields k)) m = ret tt.
Proof.
  intros (_ & _ & H) Hl Hm. unfold method. rewrite assoc_None; [reflexivity|].
  rewrite lift_fields_names by assumption. intros Hn. exact (H m Hn Hm).
Qed.

Theorem gread_struct_sim : prog_ok p -> forall dfuel fuel n,
  gsim (rvalue (GStruct n)) (gread_struct p P dfuel fuel n)
       (read_struct P (erased p) dfuel fuel n).
Proof.
  intros Hok. induction dfuel as [|d IH]; intros fuel n;
    cbn [gread_struct read_struct]; [apply gs_diverge|].
  rewrite erased_nth. destruct (nth_error (p_classes p) n) as [k|] eqn:Ek;
    cbn [option_map]; [|apply gs_raise].
  destruct (Hok k (nth_error_In _ _ Ek)) as (Hp & Hu & Ht).
  rewrite fresh_fdef.
  assert (Hshm : map (fun f => maybe_escape_identifier (g_name f)) (k_fields k) = names k).
  { unfold names. apply map_ext_in. intros f Hf. apply (esc_plain k); assumption. }
  destruct (k_imm k) eqn:Hi; cbv zeta.
  - rewrite Hshm.
    assert (Hsh : sh_ok (names k)) by (intros m Hm; apply Hu; assumption).
    apply gs_depth. apply gs_bind_eq. intros _.
    eapply gs_bind with (R := locals_rel (k_fields k)).
    + apply gread_fields_sim; auto.
      * intros g Hg. apply gread_ty_sim; auto.
        apply (proj1 (Ht g Hg)).
      * intros. apply locals_header; assumption.
      * intros acc a i g v HR Hg Hv. eexists. split; [reflexivity|].
        apply locals_put; assumption.
      * apply locals_init; assumption.
    + intros acc env HR. apply gs_bind_eq. intros _.
      apply gs_skip; [apply sh_use; [assumption|inb]|].
      rewrite (locals_kw_rel k acc env Hp HR).
      rewrite construct_lift; [|assumption|apply HR]. cbn [lift_out].
      apply gs_ret. split; [|exact Logic.I]. rewrite lift_struct, Ek. reflexivity.
  - rewrite construct_default by assumption. cbn [lift_out].
    change (gsim (rvalue (GStruct n))
      (method (lift_fields p (map g_def (k_fields k)) (k_fields k)) "read" ;;;
       with_depth (readStructBegin P ;;;
         a <- gread_fields P fuel fuel [] (gread_ty p P [] (gread_struct p P d fuel) fuel)
                (k_fields k) (fun a _ _ => a)
                (fun f v a => setattr p k a (maybe_escape_identifier (g_name f)) (Some v))
                (lift_fields p (map g_def (k_fields k)) (k_fields k)) ;;
         readStructEnd P ;;; ret (PObj n a)))
      (with_depth (readStructBegin P ;;;
         acc <- read_fields P fuel fuel (read_ty P (read_struct P (erased p) d fuel) fuel)
                  (map fdef (k_fields k)) (map g_def (k_fields k)) ;;
         readStructEnd P ;;; ret (VStruct n acc)))).
    apply gs_skip; [apply method_ok; auto; [apply map_length|cbn; tauto]|].
    apply gs_depth. apply gs_bind_eq. intros _.
    eapply gs_bind with (R := fun acc a => a = lift_fields p acc (k_fields k)
                                           /\ okfs (k_fields k) acc).
    + apply gread_fields_sim.
      * intros m [].
      * intros g Hg. apply gread_ty_sim; auto; [intros m []|apply (proj1 (Ht g Hg))].
      * auto.
      * intros acc a i g v [-> Hfs] Hg Hv. eexists.
        assert (Hin := nth_error_In _ _ Hg).
        rewrite (esc_plain k g Hp Hin).
        rewrite setattr_field; auto; [|apply Hp].
        split; [reflexivity|]. split.
        -- apply lift_fields_upd; [apply Hp|apply Hfs|assumption].
        -- eapply okfs_set; eauto.
      * split; [reflexivity|apply okfs_fresh; assumption].
    + intros acc a [-> _]. apply gs_bind_eq. intros _. apply gs_ret.
      split; [|exact Logic.I]. rewrite lift_struct, Ek. reflexivity.
Qed.

End Sim.
End Prog.
