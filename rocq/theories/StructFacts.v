(** Struct-level consequences of the generic theorems: serialise and
    deserialise whole structs. *)
From Coq Require Import ZArith List Bool Lia.
From Coq Require Import Init.Byte.
From Verif Require Import Base Bytes Utf8 Proto Spec Laws RoundTrip.
Import ListNotations.
Open Scope Z_scope.

(** * Same schema on both sides *)

Definition same (env : schema) (n m : nat) : bool :=
  (n =? m)%nat && (n <? length env)%nat.

Lemma compat_same env t : closed_ty env t = true -> compat (same env) t t = true.
Proof.
  induction t; cbn [closed_ty compat]; intros H; auto.
  - apply andb_prop in H as [H1 H2]. rewrite IHt1, IHt2 by assumption. reflexivity.
  - unfold same. rewrite Nat.eqb_refl, H. reflexivity.
Qed.

Lemma NoDup_f_id ds a b : NoDup (map f_id ds) -> In a ds -> In b ds ->
  f_id a = f_id b -> a = b.
Proof.
  induction ds as [|d ds IH]; intros Hn Ha Hb E; [destruct Ha|].
  cbn [map] in Hn. inversion Hn as [|? ? Hni Hn']; subst.
  destruct Ha as [->|Ha], Hb as [->|Hb]; auto.
  - exfalso. apply Hni. rewrite E. apply in_map. assumption.
  - exfalso. apply Hni. rewrite <- E. apply in_map. assumption.
Qed.

Lemma compat_env_same {I} env : schema_okd I env -> schema_closed env = true ->
  compat_env env env (same env).
Proof.
  intros Hok Hc n m H. unfold same in H. apply andb_prop in H as [H1 H2].
  apply Nat.eqb_eq in H1. subst m. apply Nat.ltb_lt in H2.
  destruct (nth_error env n) as [ds|] eqn:E.
  2:{ apply nth_error_None in E. lia. }
  exists ds, ds. repeat split; auto.
  intros a b Ha Hb Hid _. destruct (Hok _ _ E) as [Hn _].
  rewrite (NoDup_f_id ds a b) by assumption.
  apply compat_same. unfold schema_closed in Hc.
  rewrite forallb_forall in Hc. specialize (Hc ds (nth_error_In _ _ E)).
  rewrite forallb_forall in Hc. apply Hc. assumption.
Qed.

Lemma wf_hashable_base {D} env SL CL t v : hashable t = true ->
  wfd D env SL CL t v = true -> base_ty t = true.
Proof. destruct t; intros H; try discriminate; reflexivity. Qed.

Lemma proj_base_same env a v : base_ty a = true -> proj env env a a v = v.
Proof. destruct a; intros Ha; try discriminate; destruct v; reflexivity. Qed.

Lemma look_hit env dR dflt pre fpre fs ds :
  NoDup (map f_id (pre ++ dR :: ds)) -> length fpre = length pre ->
  look env env dR dflt (fpre ++ fs) (pre ++ dR :: ds) =
  match fs with
  | Some x :: _ => Some (proj env env (f_ty dR) (f_ty dR) x)
  | _ => dflt
  end.
Proof.
  revert fpre; induction pre as [|p pre IH]; intros [|f fpre] Hn Hl;
    cbn [length] in Hl; try lia; cbn [app].
  - destruct fs as [|[x|] fs]; cbn [look]; [reflexivity| |].
    + rewrite !Z.eqb_refl. reflexivity.
    + apply look_none. cbn [app map] in Hn. inversion Hn; assumption.
  - cbn [app map] in Hn. inversion Hn as [|? ? Hni Hn']; subst.
    assert (Hne : f_id p =? f_id dR = false).
    { apply Z.eqb_neq. intros E. apply Hni. rewrite E, map_app.
      apply in_or_app. right. left. reflexivity. }
    cbn [look]. destruct f as [x|]; rewrite ?Hne; cbn [andb]; apply IH; auto; lia.
Qed.

Fixpoint wd_fields (env : schema) (fs : list (option value)) (ds : list fielddef)
  : list (option value) :=
  match fs, ds with
  | f :: fs', d :: ds' =>
      match f with
      | Some x => Some (with_defaults env (f_ty d) x)
      | None => f_def d
      end :: wd_fields env fs' ds'
  | _, _ => []
  end.

Lemma with_defaults_struct env m n fs ds : nth_error env n = Some ds ->
  with_defaults env (TStruct m) (VStruct n fs) = VStruct n (wd_fields env fs ds).
Proof.
  intros H. cbn [with_defaults]. rewrite H. f_equal. clear H.
  revert ds; induction fs as [|f fs IH]; intros [|d ds]; cbn [wd_fields];
    try reflexivity. f_equal. apply IH.
Qed.

Theorem proj_with_defaults {D I} env SL CL v : schema_okd I env -> forall t,
  wfd D env SL CL t v = true -> proj env env t t v = with_defaults env t v.
Proof.
  intros Hok. induction v using value_rect'; intros t Hwf;
    destruct t; try discriminate Hwf; try reflexivity; cbn [wfd] in Hwf.
  - cbn [proj with_defaults]. f_equal. apply andb_prop in Hwf as [_ Hl].
    induction H as [|x l Hx _ IH]; [reflexivity|].
    cbn [forallb map] in *. apply andb_prop in Hl as [H1 H2].
    rewrite Hx by assumption. f_equal. apply IH. assumption.
  - cbn [proj with_defaults]. f_equal. apply andb_prop in Hwf as [Hwf Hl].
    apply andb_prop in Hwf as [Hwf _]. apply andb_prop in Hwf as [_ Hh].
    assert (Hb : base_ty t = true) by (destruct t; try discriminate; reflexivity).
    clear -Hb. induction l as [|x l IH]; [reflexivity|].
    cbn [map]. rewrite proj_base_same by assumption. f_equal. apply IH.
  - cbn [proj with_defaults]. f_equal. apply andb_prop in Hwf as [Hwf Hl].
    apply andb_prop in Hwf as [Hwf _]. apply andb_prop in Hwf as [_ Hh].
    assert (Hb : base_ty t1 = true) by (destruct t1; try discriminate; reflexivity).
    induction H as [|[k x] l [_ Hx] _ IH]; [reflexivity|].
    cbn [forallb map fst snd] in *. apply andb_prop in Hl as [H1 H2].
    apply andb_prop in H1 as [_ H1].
    rewrite proj_base_same by assumption. rewrite Hx by assumption.
    f_equal. apply IH. assumption.
  - apply andb_prop in Hwf as [Hnm Hf]. apply Nat.eqb_eq in Hnm. subst n0.
    destruct (nth_error env n) as [ds|] eqn:E; [|discriminate].
    rewrite (proj_struct _ _ _ _ _ _ _ _ E E).
    rewrite (with_defaults_struct _ _ _ _ _ E). f_equal.
    assert (Hw : wf_fields (D := D) env SL CL fs ds = true).
    { pose proof (wf_struct (D := D) env SL CL n n fs) as W. rewrite E in W.
      rewrite Nat.eqb_refl in W. cbn [andb wfd] in W.
      rewrite Nat.eqb_refl, E in W. cbn [andb] in W. rewrite <- W. exact Hf. }
    clear Hf. destruct (Hok _ _ E) as [Hnd _]. clear E Hok.
    assert (G : forall ds' fs' pre fpre, ds = pre ++ ds' -> fs = fpre ++ fs' ->
      length fpre = length pre -> wf_fields (D := D) env SL CL fs' ds' = true ->
      map (fun dR => look env env dR (f_def dR) fs ds) ds' = wd_fields env fs' ds').
    { induction ds' as [|d ds' IH]; intros fs' pre fpre Ed Ef Hl Hw'.
      - destruct fs'; reflexivity.
      - destruct fs' as [|f fs']; [discriminate|].
        cbn [map wd_fields wf_fields] in *. apply andb_prop in Hw' as [H1 H2].
        f_equal.
        + rewrite Ed, Ef, look_hit by (assumption || (rewrite <- Ed; assumption)).
          destruct f as [x|]; [|reflexivity]. f_equal.
          rewrite Ef in H. apply Forall_app in H as [_ H].
          inversion H as [|? ? Hx _]; subst. apply Hx. assumption.
        + apply (IH fs' (pre ++ [d]) (fpre ++ [f])).
          * rewrite <- app_assoc. exact Ed.
          * rewrite <- app_assoc. exact Ef.
          * rewrite !app_length. cbn [length]. lia.
          * assumption. }
    apply (G ds fs [] []); auto.
Qed.

Theorem with_defaults_id {D} env v : forall t SL CL,
  wfd D env SL CL t v = true -> no_missing_default env t v = true ->
  with_defaults env t v = v.
Proof.
  induction v using value_rect'; intros t SL CL Hwf Hd;
    destruct t; try reflexivity; try discriminate Hwf;
    cbn [with_defaults no_missing_default wfd] in *.
  - f_equal. apply andb_prop in Hwf as [_ Hwf].
    induction H as [|x l Hx _ IH]; [reflexivity|].
    cbn [forallb map] in *. apply andb_prop in Hd as [H1 H2].
    apply andb_prop in Hwf as [W1 W2].
    rewrite (Hx _ SL CL) by assumption. f_equal. apply IH; assumption.
  - f_equal. apply andb_prop in Hwf as [_ Hwf].
    induction H as [|[k x] l [_ Hx] _ IH]; [reflexivity|].
    cbn [forallb map fst snd] in *. apply andb_prop in Hd as [H1 H2].
    apply andb_prop in Hwf as [W1 W2]. apply andb_prop in W1 as [_ W1].
    rewrite (Hx _ SL CL) by assumption. f_equal. apply IH; assumption.
  - apply andb_prop in Hwf as [Hn Hwf]. apply Nat.eqb_eq in Hn. subst n0.
    destruct (nth_error env n) as [ds|]; [|reflexivity]. f_equal.
    revert ds Hwf Hd. induction H as [|f fs Hf _ IH]; intros [|d ds] Hwf Hd;
      try discriminate Hwf; [reflexivity|].
    apply andb_prop in Hwf as [W1 W2]. apply andb_prop in Hd as [H1 H2].
    f_equal.
    + destruct f as [x|]; [rewrite (Hf _ SL CL) by assumption; reflexivity|].
      destruct (f_def d); [discriminate|reflexivity].
    + apply IH; assumption.
Qed.

(** * Whole structs *)

Section S.
Context {X : Type} {P : proto X} {SL CL : Z} (L : laws P SL CL).
Variables (c0 : C L) (x0 : X).
Hypothesis Hs : spos L c0.

Lemma serialize_enc env n v : wrep L c0 x0 -> schema_okd (idok L) env ->
  wfd (dok L) env SL CL (TStruct n) v = true -> (sdepth v <= 64)%nat ->
  serialize P x0 env n v = Ok (enc L env c0 (TStruct n) v).
Proof.
  intros Hr Hok Hwf Hd.
  destruct (write_enc L env Hok v 0 (TStruct n) c0 ltac:(lia) Hs Hwf
              ltac:(lia) x0 [] [] Hr) as (x' & E & _).
  unfold serialize, write_struct. rewrite E. reflexivity.
Qed.

Lemma deserialize_enc envW envR R n m v tail :
  schema_okd (idok L) envW -> schema_okd (idok L) envR -> compat_env envW envR R ->
  R n m = true ->
  rrep L c0 x0 (enc L envW c0 (TStruct n) v ++ tail)
    (enc L envW c0 (TStruct n) v ++ tail) ->
  wfd (dok L) envW SL CL (TStruct n) v = true -> (sdepth v <= 64)%nat ->
  drop_ok envW envR (skbin L) SKIP_DEPTH (TStruct n) (TStruct m) v = true ->
  exists x' i',
    read_struct P envR DFUEL
       (S (length (enc L envW c0 (TStruct n) v ++ tail))) m
       (mkst x0 (enc L envW c0 (TStruct n) v ++ tail) [] 0)
    = (Ok (proj envW envR (TStruct n) (TStruct m) v), mkst x' i' [] 0)
    /\ rrep L (nxt L c0) x' i' tail.
Proof.
  intros HokW HokR HR Hnm Hr Hwf Hd Hdr.
  destruct (read_enc L envW envR R HokW HokR HR
     (S (length (enc L envW c0 (TStruct n) v ++ tail))) v 0
     (TStruct n) (TStruct m) c0 DFUEL ltac:(lia) Hnm Hs Hwf
     ltac:(lia) ltac:(unfold DFUEL; lia)
     ltac:(rewrite app_length; lia) Hdr tail I x0 _ [] Hr)
    as (x' & i' & E & H').
  exists x', i'. split; [exact E|exact H'].
Qed.

End S.

Lemma drop_ok_same {D I} env p k v : schema_okd I env -> forall t SL CL,
  wfd D env SL CL t v = true -> drop_ok env env p k t t v = true.
Proof.
  intros Hok. induction v using value_rect'; intros t SL CL Hwf;
    destruct t; try reflexivity; try discriminate Hwf; cbn [wfd] in Hwf.
  - cbn [drop_ok]. apply andb_prop in Hwf as [_ Hwf].
    apply forallb_forall. intros x Hx. rewrite Forall_forall in H.
    rewrite forallb_forall in Hwf. eapply H; eauto.
  - cbn [drop_ok]. apply andb_prop in Hwf as [_ Hwf].
    apply forallb_forall. intros [a x] Hx. rewrite Forall_forall in H.
    rewrite forallb_forall in Hwf. specialize (Hwf _ Hx). cbn in Hwf.
    apply andb_prop in Hwf as [_ Hwf].
    destruct (H _ Hx) as [_ Hs]. eapply Hs; eauto.
  - apply andb_prop in Hwf as [Hn Hwf]. apply Nat.eqb_eq in Hn. subst n0.
    cbn [drop_ok]. destruct (nth_error env n) as [ds|] eqn:E; [|reflexivity].
    destruct (Hok _ _ E) as [Hnd _].
    assert (G : forall fs ds', incl ds' ds ->
      Forall (fun f => match f with Some x => forall t SL CL,
         wfd D env SL CL t x = true -> drop_ok env env p k t t x = true
         | None => True end) fs ->
      wf_fields (D := D) env SL CL fs ds' = true ->
      (fix go fs ds0 :=
             match fs, ds0 with
             | f :: fs', d :: ds' =>
                 match f with
                 | Some x =>
                     match find (fun dR => (f_id d =? f_id dR)
                                  && (code (f_ty d) =? code (f_ty dR))) ds with
                     | Some dR => drop_ok env env p k (f_ty d) (f_ty dR) x
                     | None => (vdepth x <=? k)%nat && all_bin p x
                     end
                 | None => true
                 end && go fs' ds'
             | _, _ => true
             end) fs ds' = true).
    { clear fs H Hwf. induction fs as [|f fs IH]; intros [|d ds'] Hi Hf Hw;
        try reflexivity. cbn [wf_fields] in Hw. apply andb_prop in Hw as [H1 H2].
      inversion Hf as [|? ? Hf1 Hf2]; subst.
      rewrite (IH ds'); auto. 2:{ intros a Ha. apply Hi. right. exact Ha. }
      rewrite andb_true_r. destruct f as [x|]; [|reflexivity].
      destruct (find _ ds) as [dR|] eqn:Ef.
      - apply find_some in Ef as [Hin Ef]. apply andb_prop in Ef as [Ei _].
        apply Z.eqb_eq in Ei.
        rewrite <- (NoDup_f_id ds d dR Hnd (Hi d (or_introl eq_refl)) Hin Ei).
        eapply Hf1; eassumption.
      - exfalso. pose proof (find_none _ _ Ef d (Hi d (or_introl eq_refl))) as Hf0.
        cbn beta in Hf0. rewrite !Z.eqb_refl in Hf0. discriminate. }
    apply G; [apply incl_refl|exact H|].
    pose proof (wf_struct (D := D) env SL CL n n fs) as W. cbn [wfd] in W.
    rewrite Nat.eqb_refl, E in W. cbn [andb] in W. rewrite <- W. exact Hwf.
Qed.

(** * Serialisers that share their write methods *)

Definition same_writers {X} (P P' : proto X) : Prop :=
  writeStructBegin P = writeStructBegin P'
  /\ writeStructEnd P = writeStructEnd P'
  /\ writeFieldBegin P = writeFieldBegin P'
  /\ writeFieldEnd P = writeFieldEnd P'
  /\ writeFieldStop P = writeFieldStop P'
  /\ writeMapBegin P = writeMapBegin P'
  /\ writeMapEnd P = writeMapEnd P'
  /\ writeListBegin P = writeListBegin P'
  /\ writeListEnd P = writeListEnd P'
  /\ writeSetBegin P = writeSetBegin P'
  /\ writeSetEnd P = writeSetEnd P'
  /\ (forall t v, write_base P t v = write_base P' t v).

Lemma write_value_same {X} (P P' : proto X) env v : same_writers P P' -> forall t,
  write_value P env t v = write_value P' env t v.
Proof.
  intros (E1 & E2 & E3 & E4 & E5 & E6 & E7 & E8 & E9 & E10 & E11 & E12).
  induction v using value_rect'; intros t.
  1-6: destruct t; cbn [write_value]; apply E12.
  - destruct t; cbn [write_value]; try apply E12.
    rewrite E8, E9. f_equal.
    assert (G : mapM_ (write_value P env t) l = mapM_ (write_value P' env t) l).
    { induction H as [|x l Hx _ IH]; [reflexivity|]. cbn [mapM_].
      rewrite Hx. rewrite IH. reflexivity. }
    rewrite G. reflexivity.
  - destruct t; cbn [write_value]; try apply E12.
    rewrite E10, E11. f_equal.
    assert (G : mapM_ (write_value P env t) l = mapM_ (write_value P' env t) l).
    { induction H as [|x l Hx _ IH]; [reflexivity|]. cbn [mapM_].
      rewrite Hx. rewrite IH. reflexivity. }
    rewrite G. reflexivity.
  - destruct t; cbn [write_value]; try apply E12.
    rewrite E6, E7.
    match goal with |- bind _ (fun _ => bind ?a _) = bind _ (fun _ => bind ?b _) =>
      assert (G : a = b) end.
    { induction H as [|[k x] l [Hk Hx] _ IH]; [reflexivity|]. cbn [mapM_ fst snd] in *.
      rewrite Hk, Hx. rewrite IH. reflexivity. }
    rewrite G. reflexivity.
  - destruct t; cbn [write_value]; try apply E12.
    destruct (nth_error env n) as [ds|]; [|reflexivity].
    rewrite E1, E2, E5.
    assert (G : forall ds, write_fields P (write_value P env) fs ds
                = write_fields P' (write_value P' env) fs ds).
    { clear ds. induction H as [|f fs Hf _ IH]; intros ds; [destruct ds; reflexivity|].
      destruct f as [x|], ds as [|d ds]; try reflexivity;
        cbn [write_fields].
      - rewrite Hf, IH, E3, E4. reflexivity.
      - apply IH. }
    rewrite G. reflexivity.
Qed.
