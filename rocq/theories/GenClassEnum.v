(** What the [enum] option makes of enum values: facts about generated classes
    with it. *)
From Coq Require Import String.
From Coq Require Import ZArith List Bool Lia.
From Coq Require Import Init.Byte.
From Coq Require Import ZifyBool ZifyNat ZifyN.
From Verif Require Import Base Bytes Utf8 Proto Spec Laws RoundTrip StructFacts Dynamic Ext ExtRead.
From Verif Require Import GenClass SpecClass GenClassFacts GenClassRead GenClassWrite GenClassDec
  GenClassNames.
Import ListNotations.
Open Scope Z_scope.

(** The field of a class with a given name. *)
Definition field_named (k : gclass) (m : string) : option gfield :=
  find (fun f => String.eqb m (g_name f)) (k_fields k).

(** Every enum value in [x], at any depth, is a member of its enum. *)
Fixpoint members (p : gprog) (t : gty) (x : pv) {struct x} : bool :=
  match t, x with
  | GEnum e _, PMember e' z => (e =? e')%nat && is_member p e z
  | GEnum _ _, _ => false
  | GList _ et, PList _ l => forallb (members p et) l
  | GSet _ et, PSet _ l => forallb (members p et) l
  | GMap _ kt vt, PMap _ l =>
      forallb (fun kv => match kv with
                         | (k, y) => members p kt k && members p vt y
                         end) l
  | GStruct _, PObj n a =>
      match nth_error (p_classes p) n with
      | None => true
      | Some k =>
          forallb (fun b => match b with
                            | (m, Some y) =>
                                match field_named k m with
                                | Some f => members p (g_ty f) y
                                | None => true
                                end
                            | (_, None) => true
                            end) a
      end
  | _, _ => true
  end.

Lemma field_named_In k f : NoDup (names k) -> In f (k_fields k) ->
  field_named k (g_name f) = Some f.
Proof.
  unfold names, field_named. induction (k_fields k) as [|g gs IH]; intros Hnd Hf; [destruct Hf|].
  cbn [find map] in *. inversion_clear Hnd as [|? ? Hn Hd].
  destruct Hf as [->|Hf]; [rewrite String.eqb_refl; reflexivity|].
  destruct (String.eqb_spec (g_name f) (g_name g)) as [E|]; [|auto].
  exfalso. apply Hn. rewrite <- E. apply in_map. assumption.
Qed.

Lemma field_named_sound k m f : field_named k m = Some f -> In f (k_fields k) /\ m = g_name f.
Proof.
  intros H. apply find_some in H as [H1 H2]. apply String.eqb_eq in H2. auto.
Qed.

Lemma Forall_upd {A} (Q : string * A -> Prop) l n v :
  Forall Q l -> Q (n, v) -> Forall Q (upd l n v).
Proof.
  intros Hl Hq. induction Hl as [|[m w] l Hm Hl IH]; cbn [upd]; [auto|].
  destruct (String.eqb_spec n m) as [->|]; auto.
Qed.

Lemma assoc_In {A} (l : list (string * A)) n v : assoc n l = Some v -> In (n, v) l.
Proof.
  induction l as [|[m w] l IH]; cbn [assoc]; [discriminate|].
  destruct (String.eqb_spec n m) as [->|]; [intros [= ->]; left; reflexivity|right; auto].
Qed.

Section Prog.
Variable p : gprog.
Hypothesis Ho : o_enum p = true.

(** * Lifted values *)

Lemma members_lift v : prog_ok p -> forall t,
  shaped p t v = true -> enums_ok p t v = true -> members p t (lift p t v) = true.
Proof.
  intros Hok.
  induction v using value_rect'; intros [bt|e td|imm t|imm t|imm kt vt|m] Hs He;
    try reflexivity; try discriminate Hs.
  - cbn [lift enums_ok] in *. rewrite Ho. cbn [members]. rewrite Nat.eqb_refl, He. reflexivity.
  - cbn [shaped enums_ok lift members] in *. rewrite forallb_forall in *.
    rewrite Forall_forall in H. intros x Hx. apply in_map_iff in Hx as (y & <- & Hy). auto.
  - cbn [shaped enums_ok lift members] in *. rewrite forallb_forall in *.
    rewrite Forall_forall in H. intros x Hx. apply in_map_iff in Hx as (y & <- & Hy). auto.
  - cbn [shaped enums_ok lift members] in *. rewrite forallb_forall in *.
    rewrite Forall_forall in H. intros x Hx. apply in_map_iff in Hx as ([a b] & <- & Hy).
    specialize (H _ Hy). specialize (Hs _ Hy). specialize (He _ Hy). cbn [fst snd] in *.
    apply andb_prop in Hs as [Hs1 Hs2], He as [He1 He2]. destruct H as [H1 H2].
    rewrite H1, H2 by assumption. reflexivity.
  - rewrite lift_struct. cbn [shaped enums_ok members] in *.
    destruct (nth_error (p_classes p) n) as [k|] eqn:Ek; [|reflexivity].
    assert (Hnd : NoDup (names k)) by (apply (Hok k); eapply nth_error_In; eauto).
    assert (Hf : forall g, In g (k_fields k) -> field_named k (g_name g) = Some g)
      by (intros; apply field_named_In; assumption).
    clear Ek Hnd. remember (k_fields k) as gs eqn:Eg. clear Eg.
    revert gs Hs He Hf. induction H as [|f fs Hx _ IH]; intros [|g gs] Hs He Hf; try reflexivity.
    cbn [lift_fields forallb]. apply andb_prop in Hs as [Hs Hs'], He as [He He'].
    rewrite IH; auto.
    + rewrite andb_true_r. destruct f as [x|]; cbn [option_map]; [|reflexivity].
      rewrite Hf by (left; reflexivity). apply Hx; assumption.
    + intros g' Hg'. apply Hf. right. assumption.
Qed.

Lemma enums_lift v : prog_ok p -> forall t,
  members p t (lift p t v) = true -> enums_ok p t v = true.
Proof.
  intros Hok.
  induction v using value_rect'; intros [bt|e td|imm t|imm t|imm kt vt|m] Hm; try reflexivity.
  - cbn [lift enums_ok] in *. rewrite Ho in Hm. cbn [members] in Hm.
    apply andb_prop in Hm as [_ Hm]. exact Hm.
  - cbn [enums_ok lift members] in *. rewrite forallb_forall in *.
    rewrite Forall_forall in H. intros x Hx. apply H; auto. apply Hm. apply in_map. assumption.
  - cbn [enums_ok lift members] in *. rewrite forallb_forall in *.
    rewrite Forall_forall in H. intros x Hx. apply H; auto. apply Hm. apply in_map. assumption.
  - cbn [enums_ok lift members] in *. rewrite forallb_forall in *.
    rewrite Forall_forall in H. intros [a b] Hx. specialize (H _ Hx).
    assert (Hi := in_map (fun kv => match kv with (k, x) => (lift p kt k, lift p vt x) end) _ _ Hx).
    specialize (Hm _ Hi). cbn [fst snd] in *. apply andb_prop in Hm as [H1 H2].
    destruct H as [Ha Hb]. rewrite Ha, Hb by assumption. reflexivity.
  - rewrite lift_struct in Hm. cbn [enums_ok members] in *.
    destruct (nth_error (p_classes p) n) as [k|] eqn:Ek; [|reflexivity].
    assert (Hnd : NoDup (names k)) by (apply (Hok k); eapply nth_error_In; eauto).
    assert (Hf : forall g, In g (k_fields k) -> field_named k (g_name g) = Some g)
      by (intros; apply field_named_In; assumption).
    clear Ek Hnd. remember (k_fields k) as gs eqn:Eg. clear Eg.
    revert gs Hm Hf. induction H as [|f fs Hx _ IH]; intros [|g gs] Hm Hf; try reflexivity.
    cbn [lift_fields forallb] in Hm. apply andb_prop in Hm as [Hm Hm'].
    rewrite IH; auto.
    + rewrite andb_true_r. destruct f as [x|]; cbn [option_map] in Hm; [|reflexivity].
      rewrite Hf in Hm by (left; reflexivity). apply Hx; assumption.
    + intros g' Hg'. apply Hf. right. assumption.
Qed.

Lemma enums_defaults v : forall t,
  enums_ok p t (with_defaults (erased p) (ety t) v) = true -> enums_ok p t v = true.
Proof.
  induction v using value_rect'; intros [bt|e td|imm t|imm t|imm kt vt|m] Hm; try exact Hm;
    try reflexivity.
  - cbn [enums_ok with_defaults ety] in *. rewrite forallb_forall in *.
    rewrite Forall_forall in H. intros x Hx. apply H; auto. apply Hm. apply in_map. assumption.
  - cbn [enums_ok with_defaults ety] in *. rewrite forallb_forall in *.
    rewrite Forall_forall in H. intros [a b] Hx. specialize (H _ Hx).
    assert (Hi := in_map (fun kv => match kv with (k, x) =>
                            (k, with_defaults (erased p) (ety vt) x) end) _ _ Hx).
    specialize (Hm _ Hi). cbn [fst snd] in *. apply andb_prop in Hm as [H1 H2].
    destruct H as [Ha Hb]. rewrite H1, Hb by assumption. reflexivity.
  - cbn [ety] in Hm. destruct (nth_error (p_classes p) n) as [k|] eqn:Ek.
    + assert (Es : nth_error (erased p) n = Some (map fdef (k_fields k)))
        by (rewrite erased_nth, Ek; reflexivity).
      rewrite (with_defaults_struct _ _ _ _ _ Es) in Hm. clear Es.
      cbn [enums_ok] in *. rewrite Ek in *.
      remember (k_fields k) as gs eqn:Eg. clear Eg Ek.
      revert gs Hm. induction H as [|f fs Hx _ IH]; intros [|g gs] Hm; try reflexivity.
      cbn [map wd_fields] in Hm. apply andb_prop in Hm as [Hm Hm']. rewrite IH by assumption.
      rewrite andb_true_r. destruct f as [x|]; [|reflexivity]. apply Hx. exact Hm.
    + cbn [enums_ok]. rewrite Ek. reflexivity.
Qed.

(** * Attributes *)

Definition bok (k : gclass) (b : string * option pv) : Prop :=
  match b with
  | (m, Some y) =>
      match field_named k m with Some f => members p (g_ty f) y = true | None => True end
  | (_, None) => True
  end.

Lemma members_obj t n k a : nth_error (p_classes p) n = Some k -> Forall (bok k) a ->
  members p (GStruct t) (PObj n a) = true.
Proof.
  intros Ek Ha. cbn [members]. rewrite Ek. apply forallb_forall. intros [m [y|]] Hb; [|reflexivity].
  rewrite Forall_forall in Ha. specialize (Ha _ Hb). cbn [bok] in Ha.
  destruct (field_named k m); [assumption|reflexivity].
Qed.

Lemma bok_field k f y : NoDup (names k) -> In f (k_fields k) ->
  members p (g_ty f) y = true -> bok k (g_name f, Some y).
Proof. intros Hnd Hf Hy. cbn [bok]. rewrite field_named_In by assumption. assumption. Qed.

Lemma bok_assoc k a f y : NoDup (names k) -> In f (k_fields k) -> Forall (bok k) a ->
  assoc (g_name f) a = Some (Some y) -> members p (g_ty f) y = true.
Proof.
  intros Hnd Hf Ha H. apply assoc_In in H. rewrite Forall_forall in Ha.
  specialize (Ha _ H). cbn [bok] in Ha. rewrite field_named_In in Ha by assumption. assumption.
Qed.

Lemma bok_none k m : bok k (m, None).
Proof. exact Logic.I. Qed.

Lemma bok_option k f v : NoDup (names k) -> In f (k_fields k) ->
  match v with Some y => members p (g_ty f) y = true | None => True end ->
  bok k (g_name f, v).
Proof. intros Hnd Hf Hv. destruct v; [apply bok_field; assumption|apply bok_none]. Qed.

Lemma enum_call_members e td v x : enum_call p e v = Ok x -> members p (GEnum e td) x = true.
Proof.
  unfold enum_call.
  assert (H : forall z, (if is_member p e z then Ok (PMember e z) else Raise EValueError) = Ok x ->
    members p (GEnum e td) x = true).
  { intros z. destruct (is_member p e z) eqn:E; [|discriminate]. intros [= <-].
    cbn [members]. rewrite Nat.eqb_refl, E. reflexivity. }
  destruct v as [[]| | | | |]; try discriminate; apply H.
Qed.

Lemma members_get_members e td v x : members_get p e v = Ok (Some x) ->
  members p (GEnum e td) x = true.
Proof.
  unfold members_get. destruct v as [[]|e' z'|i l|i l|i l|n l]; try discriminate;
    try (destruct i; discriminate).
  destruct (nth_error (p_enums p) e) as [d|] eqn:Ed; [|discriminate].
  destruct (find _ (e_members d)) as [[m z]|] eqn:Ef; [|discriminate]. intros [= <-].
  cbn [members]. rewrite Nat.eqb_refl. cbn [andb]. unfold is_member. rewrite Ed.
  apply existsb_exists. exists (m, z). split; [|apply Z.eqb_refl].
  apply find_some in Ef as [Ef _]. assumption.
Qed.

Lemma setattr_bok k f y a a' : plain k -> In f (k_fields k) -> k_imm k = false ->
  members p (g_ty f) y = true ->
  Forall (bok k) a -> setattr p k a (g_name f) (Some y) = Ok a' -> Forall (bok k) a'.
Proof.
  intros Hp Hf Hi Hy Ha. unfold setattr. rewrite Hi, Ho.
  assert (Hnd : NoDup (names k)) by apply Hp.
  destruct (enum_field k (g_name f)) as [e|] eqn:Ee.
  - destruct (has_value y).
    + intros H. apply base_setattr_upd in H. subst a'. apply Forall_upd; [assumption|].
      apply bok_field; assumption.
    + destruct (enum_call p e y) as [m|ex|] eqn:Ec; try discriminate.
      intros H. apply base_setattr_upd in H. subst a'. apply Forall_upd; [assumption|].
      apply bok_field; auto.
      pose proof (enum_field_In k f e Hnd Hf Ee) as Et. rewrite Et.
      eapply enum_call_members; eauto.
  - intros H. apply base_setattr_upd in H. subst a'. apply Forall_upd; [assumption|].
    apply bok_field; assumption.
Qed.

Lemma init_field_bok k f v a a' : plain k -> In f (k_fields k) ->
  match v with Some y => members p (g_ty f) y = true | None => True end ->
  Forall (bok k) a -> init_field p k f v a = Ok a' -> Forall (bok k) a'.
Proof.
  intros Hp Hf Hv Ha. assert (Hnd : NoDup (names k)) by apply Hp. unfold init_field.
  assert (Hb : forall w, match w with Some y => members p (g_ty f) y = true | None => True end ->
    base_setattr p k a (g_name f) w = Ok a' -> Forall (bok k) a').
  { intros w Hw H. apply base_setattr_upd in H. subst a'. apply Forall_upd; [assumption|].
    apply bok_option; assumption. }
  destruct (k_imm k) eqn:Hi.
  - rewrite Ho. destruct (direct_enum f) as [e|] eqn:Ed; [|apply Hb; assumption].
    destruct v as [y|]; [|apply Hb; exact Logic.I].
    destruct (has_value y); [apply Hb; assumption|].
    destruct (members_get p e y) as [m|ex|] eqn:Em; try discriminate.
    apply Hb. destruct m as [m|]; [|exact Logic.I].
    unfold direct_enum in Ed. destruct (g_ty f) as [|e' [|]| | | |]; try discriminate Ed.
    injection Ed as ->. eapply members_get_members; eauto.
  - rewrite (esc_plain k f Hp Hf). destruct v as [y|]; [apply setattr_bok; auto|].
    rewrite (setattr_none p k f a Hi Hf). intros [= <-].
    apply Forall_upd; [assumption|]. exact Logic.I.
Qed.

Hypothesis Hok : prog_ok p.
Hypothesis Hdef : defaults_ok p.

Lemma default_members k f y : In k (p_classes p) -> In f (k_fields k) ->
  option_map (lift p (g_ty f)) (g_def f) = Some y -> members p (g_ty f) y = true.
Proof.
  intros Hk Hf. destruct (g_def f) as [v|] eqn:Ed; [|discriminate]. intros [= <-].
  destruct (Hdef k f v Hk Hf Ed). apply members_lift; assumption.
Qed.

Lemma construct_bok k kw a : In k (p_classes p) -> Forall (bok k) kw ->
  construct p k kw = Ok a -> Forall (bok k) a.
Proof.
  intros Hk Hkw H. apply construct_init in H.
  destruct (Hok k Hk) as (Hp & _). assert (Hnd : NoDup (names k)) by apply Hp.
  assert (Hg : forall gs, incl gs (k_fields k) -> forall a a', Forall (bok k) a ->
    init_fields p k gs kw a = Ok a' -> Forall (bok k) a').
  { induction gs as [|g gs IH]; intros Hin b b' Hb Hi; cbn [init_fields] in Hi.
    - injection Hi as <-. assumption.
    - match type of Hi with match ?e with _ => _ end = _ =>
        destruct e as [b1|ex|] eqn:E; try discriminate Hi end.
      assert (Hgk : In g (k_fields k)) by (apply Hin; left; reflexivity).
      apply IH in Hi; [assumption|intros x Hx; apply Hin; right; assumption|].
      eapply init_field_bok; [exact Hp|exact Hgk| |exact Hb|exact E].
      rewrite (esc_plain k g Hp Hgk).
      destruct (assoc (g_name g) kw) as [[y|]|] eqn:Ea; [|exact Logic.I|].
      + eapply bok_assoc; [exact Hnd| | |exact Ea]; assumption.
      + destruct (option_map _ _) as [y|] eqn:Ed; [|exact Logic.I].
        eapply default_members; [exact Hk|eassumption|exact Ed]. }
  eapply Hg; [apply incl_refl|constructor|exact H].
Qed.

(** * The reader *)

Section Read.
Context {X : Type}.
Variable P : proto X.

Lemma repeat_inv {A} (Q : A -> Prop) fuel (f : A -> M X A) :
  (forall a s b s', Q a -> f a s = (Ok b, s') -> Q b) ->
  forall n a s b s', Q a -> repeatM fuel n f a s = (Ok b, s') -> Q b.
Proof.
  intros Hf. induction fuel as [|k IH]; intros n a s b s' Ha H; cbn [repeatM] in H.
  - destruct (n <=? 0); [injection H as <- _; assumption|discriminate H].
  - destruct (n <=? 0); [injection H as <- _; assumption|].
    apply bind_ok in H as (a1 & s1 & H1 & H). eapply IH; [|exact H]. eapply Hf; eauto.
Qed.

Lemma pset_add_Forall (Q : pv -> Prop) l v : Forall Q l -> Q v -> Forall Q (pset_add l v).
Proof.
  intros Hl Hv. unfold pset_add. destruct (existsb _ _); [assumption|].
  apply Forall_app. auto.
Qed.

Lemma pdict_set_Forall (Q : pv -> Prop) (R : pv -> Prop) l k v :
  Forall (fun e => Q (fst e) /\ R (snd e)) l -> Q k -> R v ->
  Forall (fun e => Q (fst e) /\ R (snd e)) (pdict_set l k v).
Proof.
  intros Hl Hk Hv. induction Hl as [|[k' v'] l [Hx Hy] Hl IH]; cbn [pdict_set]; [auto|].
  destruct (pkey_eqb k k'); constructor; auto.
Qed.

Lemma members_base bt x : members p (GBase bt) x = true.
Proof. destruct x; reflexivity. Qed.

Lemma gread_ty_members sh rs fuel :
  (forall n s x s', rs n s = (Ok x, s') -> members p (GStruct n) x = true) ->
  forall t s x s', gread_ty p P sh rs fuel t s = (Ok x, s') -> members p t x = true.
Proof.
  intros Hrs. induction t as [bt|e td|imm t IH|imm t IH|imm kt IHk vt IHv|n]; intros s x s' H;
    cbn [gread_ty] in H.
  - apply members_base.
  - apply bind_ok in H as (z & s1 & _ & H). rewrite Ho in H.
    apply bind_ok in H as (? & s2 & _ & H). unfold lift_out in H.
    destruct (enum_call p e (PVal (VInt z))) as [y| |] eqn:Ec; try discriminate H.
    injection H as <- _. eapply enum_call_members; eauto.
  - apply bind_ok in H as ([et n] & s1 & _ & H). apply bind_ok in H as (? & s2 & _ & H).
    apply bind_ok in H as (l & s3 & Hl & H). apply bind_ok in H as (? & s4 & _ & H).
    apply bind_ok in H as (? & s5 & _ & H). injection H as <- _. cbn [members].
    apply forallb_forall. apply Forall_forall.
    revert Hl. apply (repeat_inv (Forall (fun y => members p t y = true))); [|constructor].
    intros a s6 b s7 Ha Hb. apply bind_ok in Hb as (v & s8 & Hv & Hb). injection Hb as <- _.
    apply Forall_app. split; [assumption|]. constructor; [|constructor]. eapply IH; eauto.
  - apply bind_ok in H as (? & s0 & _ & H). apply bind_ok in H as ([et n] & s1 & _ & H).
    apply bind_ok in H as (? & s2 & _ & H). apply bind_ok in H as (l & s3 & Hl & H).
    apply bind_ok in H as (? & s4 & _ & H). apply bind_ok in H as (? & s5 & _ & H).
    injection H as <- _. cbn [members]. apply forallb_forall. apply Forall_forall.
    revert Hl. apply (repeat_inv (Forall (fun y => members p t y = true))); [|constructor].
    intros a s6 b s7 Ha Hb. apply bind_ok in Hb as (v & s8 & Hv & Hb).
    destruct (ghashable t); [|discriminate Hb]. injection Hb as <- _.
    apply pset_add_Forall; [assumption|]. eapply IH; eauto.
  - apply bind_ok in H as ([[et et'] n] & s1 & _ & H). apply bind_ok in H as (? & s2 & _ & H).
    apply bind_ok in H as (l & s3 & Hl & H). apply bind_ok in H as (? & s4 & _ & H).
    apply bind_ok in H as (? & s5 & _ & H). injection H as <- _. cbn [members].
    assert (HF : Forall (fun e => members p kt (fst e) = true /\ members p vt (snd e) = true) l).
    { revert Hl. apply repeat_inv; [|constructor].
      intros a s6 b s7 Ha Hb. apply bind_ok in Hb as (k & s8 & Hk & Hb).
      apply bind_ok in Hb as (v & s9 & Hv & Hb).
      destruct (ghashable kt); [|discriminate Hb]. injection Hb as <- _.
      apply (pdict_set_Forall (fun y => members p kt y = true) (fun y => members p vt y = true));
        [assumption|eapply IHk; eauto|eapply IHv; eauto]. }
    apply forallb_forall. intros [k v] Hkv. rewrite Forall_forall in HF.
    destruct (HF _ Hkv) as [H1 H2]. cbn [fst snd] in *. rewrite H1, H2. reflexivity.
  - apply bind_ok in H as (? & s1 & _ & H). eapply Hrs; eauto.
Qed.

Lemma gfind_sound gs fid g : gfind gs fid = Some g -> In g gs.
Proof.
  induction gs as [|h gs IH]; cbn [gfind]; [discriminate|].
  destruct (fid =? g_id h); [intros [= ->]; left; reflexivity|right; auto].
Qed.

Lemma gread_fields_inv {A} (Q : A -> Prop) skfuel sh rv gs begin put :
  (forall a ft fid, Q a -> Q (begin a ft fid)) ->
  (forall g v a a' s s', In g gs -> rv (g_ty g) s = (Ok v, s') -> Q a -> put g v a = Ok a' -> Q a') ->
  forall fuel acc s a s', Q acc ->
  gread_fields P fuel skfuel sh rv gs begin put acc s = (Ok a, s') -> Q a.
Proof.
  intros Hbeg Hput. induction fuel as [|fuel IH]; intros acc s a s' Hq H; [discriminate H|].
  cbn [gread_fields] in H. apply bind_ok in H as (? & s1 & _ & H).
  apply bind_ok in H as ([ft fid] & s2 & _ & H). apply bind_ok in H as (? & s3 & _ & H).
  specialize (Hbeg acc ft fid Hq).
  destruct (ft =? T_STOP); [injection H as <- _; assumption|].
  assert (Hsk : forall s4, bind (skip P skfuel SKIP_DEPTH ft) (fun _ => bind (readFieldEnd P)
     (fun _ => gread_fields P fuel skfuel sh rv gs begin put (begin acc ft fid))) s4 = (Ok a, s') ->
     Q a).
  { intros s4 H4. apply bind_ok in H4 as (? & s5 & _ & H4).
    apply bind_ok in H4 as (? & s6 & _ & H4). eapply IH; [|exact H4]. exact Hbeg. }
  destruct (gfind gs fid) as [g|] eqn:Eg; [|exact (Hsk _ H)].
  destruct (ft =? code (ety (g_ty g))); [|exact (Hsk _ H)].
  apply bind_ok in H as (v & s4 & Hv & H). apply bind_ok in H as (acc' & s5 & H1 & H).
  apply bind_ok in H as (? & s6 & _ & H). unfold lift_out in H1.
  destruct (put g v (begin acc ft fid)) as [a1| |] eqn:Ep; try discriminate H1.
  injection H1 as <- _. eapply IH; [|exact H].
  eapply Hput; [eapply gfind_sound; exact Eg|exact Hv|exact Hbeg|exact Ep].
Qed.

Lemma gread_struct_members dfuel : forall fuel n s x s',
  gread_struct p P dfuel fuel n s = (Ok x, s') -> members p (GStruct n) x = true.
Proof.
  induction dfuel as [|d IH]; intros fuel n s x s' H; [discriminate H|].
  cbn [gread_struct] in H. destruct (nth_error (p_classes p) n) as [k|] eqn:Ek; [|discriminate H].
  assert (Hk := nth_error_In _ _ Ek). destruct (Hok k Hk) as (Hp & Hu & _).
  assert (Hnd : NoDup (names k)) by apply Hp.
  cbv zeta in H. destruct (k_imm k) eqn:Hi.
  - apply with_depth_ok in H as (s1 & s2 & H). apply bind_ok in H as (? & s3 & _ & H).
    apply bind_ok in H as (env & s4 & He & H). apply bind_ok in H as (? & s5 & _ & H).
    apply bind_ok in H as (? & s6 & _ & H). apply bind_ok in H as (a & s7 & Ha & H).
    injection H as <- _. eapply members_obj; [exact Ek|].
    unfold lift_out in Ha.
    destruct (construct p k (locals_kw (k_fields k) env)) as [b| |] eqn:Ec; try discriminate Ha.
    injection Ha as <- _. eapply construct_bok; [exact Hk| |exact Ec].
    assert (HE : Forall (bok k) env).
    { revert He. apply gread_fields_inv.
      - intros c ft fid Hb. unfold bind_header.
        assert (Hn : forall m w, In m ["fname"; "ftype"; "fid"]%string -> bok k (m, w)).
        { intros m [w|] Hm; [|exact Logic.I]. cbn [bok].
          destruct (field_named k m) as [f|] eqn:Ef; [|exact Logic.I].
          apply field_named_sound in Ef as [Hf ->].
          exfalso. apply (Hu Hi (g_name f)); [apply in_map; assumption|].
          unfold body_names. rewrite !in_app_iff. left. cbn in Hm |- *. tauto. }
        repeat apply Forall_upd; try assumption; apply Hn; cbn; tauto.
      - intros g v c c' s8 s9 Hg Hv Hb [= <-]. rewrite (esc_plain k g Hp Hg).
        apply Forall_upd; [assumption|]. apply bok_field; auto.
        eapply gread_ty_members; [|exact Hv]. intros; eapply IH; eauto.
      - unfold init_locals.
        assert (Hgs : forall gs c, incl gs (k_fields k) -> Forall (bok k) c -> Forall (bok k)
          (fold_left (fun env f => upd env (maybe_escape_identifier (g_name f))
             (option_map (lift p (g_ty f)) (g_def f))) gs c)).
        { induction gs as [|g gs IHg]; intros c Hin Hb; cbn [fold_left]; [assumption|].
          assert (Hgk : In g (k_fields k)) by (apply Hin; left; reflexivity).
          apply IHg; [intros y Hy; apply Hin; right; assumption|].
          apply Forall_upd; [assumption|]. rewrite (esc_plain k g Hp Hgk).
          apply bok_option; auto. destruct (option_map _ _) as [y|] eqn:Ed; [|exact Logic.I].
          eapply default_members; [exact Hk|eassumption|exact Ed]. }
        apply Hgs; [apply incl_refl|constructor]. }
    unfold locals_kw. apply Forall_forall. intros c Hb.
    apply in_map_iff in Hb as (f & <- & Hf). rewrite (esc_plain k f Hp Hf).
    destruct (assoc (g_name f) env) as [[y|]|] eqn:Ea; try exact Logic.I.
    apply bok_field; auto. eapply bok_assoc; [exact Hnd| | |exact Ea]; assumption.
  - apply bind_ok in H as (a0 & s1 & Ha & H). apply bind_ok in H as (? & s2 & _ & H).
    apply with_depth_ok in H as (s3 & s4 & H). apply bind_ok in H as (? & s5 & _ & H).
    apply bind_ok in H as (a & s6 & He & H). apply bind_ok in H as (? & s7 & _ & H).
    injection H as <- _. eapply members_obj; [exact Ek|].
    unfold lift_out in Ha. destruct (construct p k []) as [b| |] eqn:Ec; try discriminate Ha.
    injection Ha as <- _. apply construct_bok in Ec; [|assumption|constructor].
    revert He. apply gread_fields_inv; [auto| |assumption].
    intros g v c c' s8 s9 Hg Hv Hc Hs. rewrite (esc_plain k g Hp Hg) in Hs.
    eapply setattr_bok; [exact Hp|exact Hg|exact Hi| |exact Hc|exact Hs].
    eapply gread_ty_members; [|exact Hv]. intros; eapply IH; eauto.
Qed.
End Read.

(** * What an assignment to a field stores *)

Definition stored (k : gclass) (f : gfield) (v w : option pv) : Prop :=
  match direct_enum f, v with
  | Some e, Some x =>
      if has_value x then w = v
      else if k_imm k then members_get p e x = Ok w
      else exists m, enum_call p e x = Ok m /\ w = Some m
  | _, _ => w = v
  end.

Lemma enum_field_direct k f : NoDup (names k) -> In f (k_fields k) ->
  enum_field k (g_name f) = direct_enum f.
Proof.
  intros Hnd Hf. destruct (enum_field k (g_name f)) as [e|] eqn:Ee.
  - apply enum_field_In in Ee; [|assumption|assumption]. unfold direct_enum. rewrite Ee. reflexivity.
  - unfold enum_field in Ee.
    destruct (find _ (k_fields k)) as [g|] eqn:Eg.
    + apply find_some in Eg as [_ Eg]. apply andb_prop in Eg as [_ Eg]. rewrite Ee in Eg. discriminate Eg.
    + pose proof (find_none _ _ Eg f Hf) as H. cbv beta in H. rewrite String.eqb_refl in H.
      destruct (direct_enum f); [discriminate H|reflexivity].
Qed.

Lemma setattr_stored k f v a a' : plain k -> In f (k_fields k) -> k_imm k = false ->
  setattr p k a (g_name f) v = Ok a' -> exists w, a' = upd a (g_name f) w /\ stored k f v w.
Proof.
  intros Hp Hf Hi. unfold setattr, stored. rewrite Hi, Ho.
  rewrite enum_field_direct by (assumption || apply Hp).
  destruct (direct_enum f) as [e|]; [destruct v as [x|]; [destruct (has_value x)|]|];
    try (intros H; apply base_setattr_upd in H; eauto; fail).
  destruct (enum_call p e x) as [m| |] eqn:Ec; try discriminate.
  intros H. apply base_setattr_upd in H. eauto.
Qed.

Lemma init_field_stored k f v a a' : plain k -> In f (k_fields k) ->
  init_field p k f v a = Ok a' -> exists w, a' = upd a (g_name f) w /\ stored k f v w.
Proof.
  intros Hp Hf. unfold init_field. destruct (k_imm k) eqn:Hi.
  - unfold stored. rewrite Hi, Ho.
    destruct (direct_enum f) as [e|]; [destruct v as [x|]; [destruct (has_value x)|]|];
      try (intros H; apply base_setattr_upd in H; eauto; fail).
    destruct (members_get p e x) as [m| |] eqn:Ec; try discriminate.
    intros H. apply base_setattr_upd in H. eauto.
  - rewrite (esc_plain k f Hp Hf). apply setattr_stored; assumption.
Qed.

Lemma init_fields_stored k kw : plain k -> forall gs, incl gs (k_fields k) -> forall a a',
  init_fields p k gs kw a = Ok a' -> forall f, In f (k_fields k) ->
  (assoc (g_name f) a' = assoc (g_name f) a /\ ~ In f gs)
  \/ exists w, assoc (g_name f) a' = Some w /\ stored k f (arg p kw f) w.
Proof.
  intros Hp. assert (Hnd : NoDup (names k)) by apply Hp.
  induction gs as [|g gs IH]; intros Hin a a' H f Hf; cbn [init_fields] in H.
  - injection H as <-. left. split; [reflexivity|intros []].
  - fold (arg p kw g) in H.
    destruct (init_field p k g (arg p kw g) a) as [a1| |] eqn:E; try discriminate H.
    assert (Hg : In g (k_fields k)) by (apply Hin; left; reflexivity).
    apply init_field_stored in E as (w & -> & Hw); [|assumption|assumption].
    eapply IH in H; [|intros y Hy; apply Hin; right; exact Hy|exact Hf].
    destruct H as [[H Hn]|H]; [|right; assumption]. rewrite assoc_upd in H.
    destruct (String.eqb_spec (g_name f) (g_name g)) as [En|En].
    + right. exists w. split; [assumption|].
      assert (f = g) as ->; [|assumption].
      pose proof (field_named_In k f Hnd Hf) as H1. rewrite En in H1.
      rewrite (field_named_In k g Hnd Hg) in H1. injection H1 as ->. reflexivity.
    + left. split; [assumption|]. intros [->|H1]; [congruence|contradiction].
Qed.

Lemma construct_stored k kw a f : plain k -> In f (k_fields k) -> construct p k kw = Ok a ->
  exists w, assoc (g_name f) a = Some w /\ stored k f (arg p kw f) w.
Proof.
  intros Hp Hf H. apply construct_init in H.
  eapply init_fields_stored in H; [|exact Hp|apply incl_refl|exact Hf].
  destruct H as [[_ H]|H]; [contradiction|assumption].
Qed.

(** * The C decoder *)

Section Decode.
Context {X : Type}.
Variable D : dimpl X.

(** [y] came out of the decoder for type [t]. *)
Definition decoded (t : gty) (y : pv) : Prop :=
  exists rs fuel s s', gdecode D rs fuel t s = (Ok y, s').

Lemma decode_loop_inv (Q : attrs -> Prop) skfuel skdepth rs fl gs put :
  (forall g v a a', In g gs -> decoded (g_ty g) v -> Q a -> put (g_name g) v a = Ok a' -> Q a') ->
  forall fuel acc s a s', Q acc ->
  gdecode_fields D fuel skfuel skdepth (gdecode D rs fl) (gspec gs) put acc s = (Ok a, s') -> Q a.
Proof.
  intros Hput. induction fuel as [|fuel IH]; intros acc s a s' Hq H; [discriminate H|].
  cbn [gdecode_fields] in H. apply bind_ok in H as ([type tag] & s1 & _ & H).
  destruct (type =? T_STOP); [injection H as <- _; assumption|].
  assert (Hag : forall s2, bind (cskip D skfuel skdepth type)
      (fun _ => gdecode_fields D fuel skfuel skdepth (gdecode D rs fl) (gspec gs) put acc) s2
      = (Ok a, s') -> Q a).
  { intros s2 H2. apply bind_ok in H2 as (? & s3 & _ & H2). eapply IH; eauto. }
  destruct ((tag <? 0) || (tag >=? Z.of_nat (length (gspec gs)))); [exact (Hag _ H)|].
  destruct (nth_error (gspec gs) (Z.to_nat tag)) as [[g|]|] eqn:Eg; [|exact (Hag _ H)|exact (Hag _ H)].
  destruct (negb (code (ety (g_ty g)) =? type)); [exact (Hag _ H)|].
  apply bind_ok in H as (v & s2 & Hv & H). apply bind_ok in H as (acc' & s3 & H1 & H).
  destruct (put (g_name g) v acc) as [a1| |] eqn:Ep; try discriminate H1.
  injection H1 as <- _. eapply IH; [|exact H].
  eapply Hput; [apply gspec_In; eapply nth_error_In; exact Eg| |exact Hq|exact Ep].
  exists rs, fl, s1, s2. exact Hv.
Qed.

Lemma field_eq k f g : NoDup (names k) -> In f (k_fields k) -> In g (k_fields k) ->
  g_name f = g_name g -> f = g.
Proof.
  intros Hnd Hf Hg E. pose proof (field_named_In k f Hnd Hf) as H1. rewrite E in H1.
  rewrite (field_named_In k g Hnd Hg) in H1. injection H1 as ->. reflexivity.
Qed.

(** Every attribute of a decoded object is the default, or stored from
    something decoded. *)
Lemma gdecode_struct_stored top dfuel fuel n k s x s' :
  nth_error (p_classes p) n = Some k -> plain k ->
  gdecode_struct p D top dfuel fuel n s = (Ok x, s') ->
  exists a, x = PObj n a /\ forall f, In f (k_fields k) ->
    exists w, assoc (g_name f) a = Some w
      /\ (stored k f (option_map (lift p (g_ty f)) (g_def f)) w
          \/ exists y, decoded (g_ty f) y /\ stored k f (Some y) w).
Proof.
  intros Ek Hp H. assert (Hnd : NoDup (names k)) by apply Hp.
  destruct dfuel as [|d]; [discriminate H|]. cbn [gdecode_struct] in H.
  rewrite Ek in H. destruct (if top then k_imm k else own_setattr p k) eqn:Ei.
  - apply recursion_guard_ok in H as (s3 & s4 & H). unfold read_scope in H.
    apply bind_ok in H as (? & s5 & _ & H). apply try_finally_ok in H as (s6 & H).
    apply bind_ok in H as (kw & s7 & H & Hr). apply bind_ok in Hr as (a & s8 & H1 & Hr).
    injection Hr as <- _. exists a. split; [reflexivity|].
    destruct (construct p k kw) as [b| |] eqn:Ec; try discriminate H1. injection H1 as -> _.
    intros f Hf.
    assert (Hkw : assoc (g_name f) kw = None
      \/ exists y, assoc (g_name f) kw = Some (Some y) /\ decoded (g_ty f) y).
    { revert H. apply (decode_loop_inv (fun kw => assoc (g_name f) kw = None
        \/ exists y, assoc (g_name f) kw = Some (Some y) /\ decoded (g_ty f) y)).
      - intros g v b b' Hg Hv Hq [= <-]. rewrite assoc_upd.
        destruct (String.eqb_spec (g_name f) (g_name g)) as [E|]; [|assumption].
        apply (field_eq k) in E; [subst g|assumption..]. right. eauto.
      - left. reflexivity. }
    destruct (construct_stored k kw a f Hp Hf Ec) as (w & Hw & Hs). exists w. split; [assumption|].
    unfold arg in Hs. rewrite (esc_plain k f Hp Hf) in Hs.
    destruct Hkw as [E|(y & E & Hy)]; rewrite E in Hs; [left; assumption|right; eauto].
  - apply bind_ok in H as (a0 & s1 & H1 & H). apply bind_ok in H as (? & s2 & _ & H).
    apply recursion_guard_ok in H as (s3 & s4 & H). unfold read_scope in H.
    apply bind_ok in H as (? & s5 & _ & H). apply try_finally_ok in H as (s6 & H).
    apply bind_ok in H as (a & s7 & H & Hr). injection Hr as <- _.
    exists a. split; [reflexivity|].
    destruct (construct p k []) as [b| |] eqn:Ec; try discriminate H1. injection H1 as -> _.
    assert (Hi : k_imm k = false).
    { destruct top; [assumption|]. unfold own_setattr in Ei. apply orb_false_elim in Ei. apply Ei. }
    intros f Hf. revert H. apply (decode_loop_inv (fun a =>
      exists w, assoc (g_name f) a = Some w
      /\ (stored k f (option_map (lift p (g_ty f)) (g_def f)) w
          \/ exists y, decoded (g_ty f) y /\ stored k f (Some y) w))).
    + intros g v b b' Hg Hv Hq Hb. apply setattr_stored in Hb as (w & -> & Hw); [|assumption..].
      rewrite assoc_upd. destruct (String.eqb_spec (g_name f) (g_name g)) as [E|]; [|assumption].
      apply (field_eq k) in E; [subst g|assumption..]. exists w. split; [reflexivity|]. right. eauto.
    + destruct (construct_stored k [] a0 f Hp Hf Ec) as (w & Hw & Hs). exists w. auto.
Qed.

Lemma fold_pset_leaves (Q : pv -> Prop) t l : Forall Q (flat_map (leaves t) l) ->
  Forall Q (flat_map (leaves t) (fold_left pset_add l [])).
Proof.
  assert (H : forall acc, Forall Q (flat_map (leaves t) l) -> Forall Q (flat_map (leaves t) acc) ->
    Forall Q (flat_map (leaves t) (fold_left pset_add l acc))).
  { induction l as [|x l IH]; intros acc Hl Ha; cbn [fold_left]; [assumption|].
    cbn [flat_map] in Hl. apply Forall_app in Hl as [Hx Hl]. apply IH; [assumption|].
    unfold pset_add. destruct (existsb _ acc); [assumption|].
    rewrite flat_map_app. apply Forall_app. split; [assumption|]. cbn [flat_map].
    rewrite app_nil_r. assumption. }
  intros Hl. apply H; [assumption|constructor].
Qed.

Lemma decoded_leaves t : forall rs fuel s x s', gdecode D rs fuel t s = (Ok x, s') ->
  Forall plain_int (leaves t x).
Proof.
  induction t as [bt|e td|imm t IH|imm t IH|imm kt IHk vt IHv|n]; intros rs fuel s x s' H;
    cbn [gdecode] in H.
  - destruct x; constructor.
  - apply bind_ok in H as (v & s1 & Hv & H). injection H as <- _. cbn [leaves].
    constructor; [|constructor]. cbn [decode_base] in Hv.
    apply bind_ok in Hv as (z & s2 & _ & Hv). injection Hv as <- _. exists z. reflexivity.
  - apply bind_ok in H as ([et n] & s1 & _ & H). apply bind_ok in H as (? & s2 & _ & H).
    apply bind_ok in H as (l & s3 & Hl & H). injection H as <- _. cbn [leaves].
    revert Hl. apply (repeat_inv (fun l => Forall plain_int (flat_map (leaves t) l))); [|constructor].
    intros a s6 b s7 Ha Hb. apply bind_ok in Hb as (v & s8 & Hv & Hb). injection Hb as <- _.
    rewrite flat_map_app. apply Forall_app. split; [assumption|]. cbn [flat_map].
    rewrite app_nil_r. eapply IH; eauto.
  - apply bind_ok in H as ([et n] & s1 & _ & H). apply bind_ok in H as (? & s2 & _ & H).
    apply bind_ok in H as (l & s3 & Hl & H).
    destruct (_ || _); [|discriminate H]. injection H as <- _. cbn [leaves].
    apply fold_pset_leaves.
    revert Hl. apply (repeat_inv (fun l => Forall plain_int (flat_map (leaves t) l))); [|constructor].
    intros a s6 b s7 Ha Hb. apply bind_ok in Hb as (v & s8 & Hv & Hb). injection Hb as <- _.
    rewrite flat_map_app. apply Forall_app. split; [assumption|]. cbn [flat_map].
    rewrite app_nil_r. eapply IH; eauto.
  - apply bind_ok in H as ([[et et'] n] & s1 & _ & H). apply bind_ok in H as (? & s2 & _ & H).
    apply bind_ok in H as (l & s3 & Hl & H). injection H as <- _. cbn [leaves].
    assert (HF : Forall (fun e => Forall plain_int (leaves kt (fst e))
                                  /\ Forall plain_int (leaves vt (snd e))) l).
    { revert Hl. apply repeat_inv; [|constructor].
      intros a s6 b s7 Ha Hb. apply bind_ok in Hb as (k & s8 & Hk & Hb).
      apply bind_ok in Hb as (v & s9 & Hv & Hb).
      destruct (ghashable kt); [|discriminate Hb]. injection Hb as <- _.
      apply (pdict_set_Forall (fun y => Forall plain_int (leaves kt y))
               (fun y => Forall plain_int (leaves vt y)));
        [assumption|eapply IHk; eauto|eapply IHv; eauto]. }
    clear Hl. induction HF as [|[k v] l [H1 H2] _ IHl]; cbn [flat_map]; [constructor|].
    cbn [fst snd] in *. apply Forall_app. split; [apply Forall_app; auto|assumption].
  - destruct x; constructor.
Qed.
End Decode.

(** * The writer *)

Section Write.
Context {X : Type}.
Variable P : proto X.

Lemma mapM_ok {A} (f : A -> M X unit) l s u s' : mapM_ f l s = (Ok u, s') ->
  forall x, In x l -> exists s1 u1 s2, f x s1 = (Ok u1, s2).
Proof.
  revert s. induction l as [|y l IH]; intros s H x Hx; [destruct Hx|].
  cbn [mapM_] in H. apply bind_ok in H as ([] & s1 & H1 & H).
  destruct Hx as [->|Hx]; [eauto|eauto].
Qed.

Lemma gwrite_leaves t : forall x s u s', gwrite p P t x s = (Ok u, s') -> Forall member (leaves t x).
Proof.
  induction t as [bt|e td|imm t IH|imm t IH|imm kt IHk vt IHv|n]; intros x s u s' H.
  - destruct x; constructor.
  - destruct x; cbn [gwrite] in H; try discriminate H.
    + rewrite Ho in H. discriminate H.
    + constructor; [|constructor]. eexists _, _. reflexivity.
  - destruct x as [v|e z|i l|i l|i l|m a]; cbn [gwrite leaves] in *; try discriminate H; try constructor.
    apply bind_ok in H as (? & s1 & _ & H). apply bind_ok in H as (? & s2 & H & _).
    apply Forall_flat_map, Forall_forall. intros y Hy. eapply mapM_ok in H as (? & ? & ? & H); eauto.
  - destruct x as [v|e z|i l|i l|i l|m a]; cbn [gwrite leaves] in *; try discriminate H; try constructor.
    apply bind_ok in H as (? & s1 & _ & H). apply bind_ok in H as (? & s2 & H & _).
    apply Forall_flat_map, Forall_forall. intros y Hy. eapply mapM_ok in H as (? & ? & ? & H); eauto.
  - destruct x as [v|e z|i l|i l|i l|m a]; cbn [gwrite leaves] in *; try discriminate H; try constructor.
    apply bind_ok in H as (? & s1 & _ & H). apply bind_ok in H as (? & s2 & H & _).
    apply Forall_flat_map, Forall_forall. intros [k y] Hy.
    eapply mapM_ok in H as (? & ? & ? & H); [|exact Hy]. cbv beta iota in H.
    apply bind_ok in H as (? & s3 & H1 & H). apply Forall_app. eauto.
  - destruct x; constructor.
Qed.

Lemma assoc_map_Some {A B} (h : string * A -> string * B) l m v w :
  (forall n v, fst (h (n, v)) = n) -> snd (h (m, v)) = w ->
  assoc m l = Some v -> assoc m (map h l) = Some w.
Proof.
  intros Hh Hw. induction l as [|[n x] l IH]; cbn [assoc map]; [discriminate|].
  pose proof (Hh n x) as Hn. destruct (h (n, x)) as [n' x'] eqn:E. cbn [fst] in Hn. subst n'.
  destruct (String.eqb_spec m n) as [->|]; [|auto]. intros [= ->]. rewrite E in Hw.
  cbn [snd] in Hw. subst. reflexivity.
Qed.

Lemma gwrite_fields_each ws gs f w : In f gs -> assoc (esc (g_name f)) ws = Some (Some w) ->
  forall s u s', gwrite_fields P ws gs s = (Ok u, s') ->
  exists s1 u1 s2, w (g_ty f) s1 = (Ok u1, s2).
Proof.
  intros Hf Ew. induction gs as [|g gs IH]; intros s u s' H; [destruct Hf|].
  cbn [gwrite_fields] in H. destruct Hf as [->|Hf].
  - rewrite Ew in H. apply bind_ok in H as (? & s1 & _ & H). apply bind_ok in H as (? & s2 & H & _).
    eauto.
  - destruct (assoc (esc (g_name g)) ws) as [[w'|]|]; [| |discriminate H].
    + apply bind_ok in H as (? & s1 & _ & H). apply bind_ok in H as (? & s2 & _ & H).
      apply bind_ok in H as (? & s3 & _ & H). eauto.
    + eauto.
Qed.

Lemma gwrite_object n k f a y s u s' : nth_error (p_classes p) n = Some k ->
  In f (k_fields k) -> assoc (esc (g_name f)) a = Some (Some y) ->
  gwrite p P (GStruct n) (PObj n a) s = (Ok u, s') -> Forall member (leaves (g_ty f) y).
Proof.
  intros Ek Hf Ha H. cbn [gwrite] in H. rewrite Ek in H.
  apply bind_ok in H as (? & s1 & _ & H). apply bind_ok in H as (? & s2 & _ & H).
  apply bind_ok in H as (? & s3 & _ & H). apply with_depth_ok in H as (s4 & s5 & H).
  apply bind_ok in H as (? & s6 & _ & H). apply bind_ok in H as (? & s7 & H & _).
  eapply (gwrite_fields_each _ _ f (fun t' => gwrite p P t' y)) in H as (? & ? & ? & H);
    [|exact Hf|].
  - eapply gwrite_leaves; eauto.
  - eapply assoc_map_Some; [| |exact Ha]; [intros ? []; reflexivity|reflexivity].
Qed.
End Write.
End Prog.
