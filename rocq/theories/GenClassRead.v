(** Reading back with the [enum] option: what a conforming writer sent, with
    members of the enums for enum values, is read without a ValueError. *)
From Coq Require Import String.
From Coq Require Import ZArith List Bool Lia.
From Coq Require Import Init.Byte.
From Coq Require Import ZifyBool ZifyNat ZifyN.
From Verif Require Import Base Bytes Utf8 Proto Spec Laws RoundTrip.
From Verif Require Import GenClass SpecClass GenClassFacts.
Import ListNotations.
Open Scope Z_scope.

Section Enc.
Context {X : Type} {P : proto X} {SL CL : Z} (L : laws P SL CL).
Notation RD := (RdD (rrep L)).
Variable p : gprog.
Notation E := (erased p).
Hypothesis Hok : prog_ok p.
Hypothesis HE : schema_okd (idok L) E.
Variable F : nat.

(** [enums_ok] of an object's attributes. *)
Fixpoint enums_fields (fs : list (option value)) (gs : list gfield) : bool :=
  match fs, gs with
  | f :: fs', g :: gs' =>
      match f with Some x => enums_ok p (g_ty g) x | None => true end
      && enums_fields fs' gs'
  | _, _ => true
  end.

Lemma enums_struct a n fs k : nth_error (p_classes p) n = Some k ->
  enums_ok p (GStruct a) (VStruct n fs) = enums_fields fs (k_fields k).
Proof. intros H. cbn [enums_ok]. rewrite H. reflexivity. Qed.

Lemma wf_okv t v : wfd (dok L) E SL CL (ety t) v = true -> okv t v.
Proof.
  destruct t; cbn [okv ety]; auto. intros H.
  rewrite wf_base in H by reflexivity. destruct v; try discriminate H. eauto.
Qed.

Lemma proj_leaf t v : base_ty (ety t) = true -> proj E E (ety t) (ety t) v = v.
Proof. intros H. apply proj_base. assumption. Qed.

Lemma Rd_use {A} d Q c c' bs (u : M X unit) (m : M X A) v :
  u = ret tt -> RD d Q c c' bs m v -> RD d Q c c' bs (u ;;; m) v.
Proof. intros -> H. exact H. Qed.

Lemma gfind_In gs g : NoDup (map f_id (map fdef gs)) -> In g gs ->
  gfind gs (g_id g) = Some g
  /\ exists i, find_field (map fdef gs) (g_id g) = Some (i, fdef g)
               /\ nth_error gs i = Some g.
Proof.
  intros Hnd Hg. pose proof (find_field_map gs (g_id g)) as H.
  assert (Huniq : forall g', In g' gs -> g_id g' = g_id g -> g' = g).
  { clear H. induction gs as [|h gs IH]; [destruct Hg|].
    cbn [map] in Hnd. inversion Hnd as [|? ? H1 H2]; subst.
    intros g' Hg' Hid. destruct Hg as [->|Hg], Hg' as [->|Hg']; auto.
    - exfalso. apply H1. change (f_id (fdef g)) with (g_id g). rewrite <- Hid.
      change (g_id g') with (f_id (fdef g')). apply in_map, in_map. assumption.
    - exfalso. apply H1. change (f_id (fdef g')) with (g_id g'). rewrite Hid.
      change (g_id g) with (f_id (fdef g)). apply in_map, in_map. assumption. }
  destruct (find_field (map fdef gs) (g_id g)) as [[i d]|] eqn:Ef.
  - destruct H as (g' & H1 & H2 & H3).
    destruct (find_field_In _ _ _ _ Ef) as [_ Hid]. rewrite H3 in Hid.
    assert (g' = g) by (apply Huniq; [eapply nth_error_In; eauto|exact Hid]).
    subst g'. split; [assumption|]. exists i. rewrite H3. auto.
  - exfalso. apply (find_field_None _ _ Ef (fdef g)); [|reflexivity].
    apply in_map. assumption.
Qed.

Lemma gread_fields_enc {A B} d gs (rv : gty -> M X pv) sh
    (begin : A -> Z -> Z -> A) (put : gfield -> pv -> A -> outcome A)
    (R : list (option value) -> A -> Prop) (k : A -> M X B) (w : B) :
  NoDup (map f_id (map fdef gs)) ->
  sh_ok p sh ->
  (forall acc a ft fid, R acc a -> R acc (begin a ft fid)) ->
  (forall acc a i g v, R acc a -> nth_error gs i = Some g -> okv (g_ty g) v ->
     exists a', put g (lift p (g_ty g) v) a = Ok a' /\ R (set_nth i (Some v) acc) a') ->
  forall fs gs1,
  (forall g, In g gs1 -> In g gs) ->
  Forall (fun f => match f with
    | Some x => forall g c, In g gs ->
        rpos L c (ety (g_ty g)) x -> wfd (dok L) E SL CL (ety (g_ty g)) x = true ->
        (length (enc L E c (ety (g_ty g)) x) <= F)%nat ->
        enums_ok p (g_ty g) x = true ->
        RD d (tailQ L (ety (g_ty g))) c (nxt L c) (enc L E c (ety (g_ty g)) x)
           (rv (g_ty g)) (lift p (g_ty g) (proj E E (ety (g_ty g)) (ety (g_ty g)) x))
    | None => True end) fs ->
  (forall g v, In g gs -> wfd (dok L) E SL CL (ety (g_ty g)) v = true ->
     okv (g_ty g) (proj E E (ety (g_ty g)) (ety (g_ty g)) v)) ->
  forall c f fuel acc a, spos L c -> fpos L c f ->
    (forall g, In g gs1 -> idok L (g_id g) = true) ->
    wf_fields (D := dok L) E SL CL fs (map fdef gs1) = true ->
    enums_fields fs gs1 = true ->
    (length (enc_fields L E f fs (map fdef gs1)) <= F)%nat ->
    (length (enc_fields L E f fs (map fdef gs1)) <= fuel)%nat ->
    R acc a ->
    (forall a', R (upd_fields E E (map fdef gs) fs (map fdef gs1) acc) a' ->
       k a' = ret w) ->
    RD d anyT f (nxt L c) (enc_fields L E f fs (map fdef gs1))
       (a' <- gread_fields P fuel F sh rv gs begin put a ;;
        readStructEnd P ;;; k a') w.
Proof.
  intros Hnd Hsh Hbeg Hput.
  induction fs as [|[x|] fs IH]; intros [|g gs1] Hin Hfs Hokv c f fuel acc a Hc Hf Hid
    Hwf Hen HF Hfuel HR Hk; cbn [wf_fields map] in Hwf; try discriminate.
  - pose proof (enc_fields_pos L E [] f []) as Hpos.
    destruct fuel as [|fuel]; [cbn [map] in Hfuel; lia|].
    cbn [enc_fields gread_fields map].
    rewrite (sh_use p sh "iprot" EAttributeError Hsh) by (unfold body_names; rewrite !in_app_iff; left; cbn; tauto).
    intros tail _ s i o Hs.
    destruct (r_stop _ _ _ L c f Hf tail) as [z Hz].
    pose proof (r_send _ _ _ L c f Hc Hf) as He.
    apply (Rd_D _ _ _ _ _ _ _ d) in Hz. apply (Rd_D _ _ _ _ _ _ _ d) in He.
    rewrite <- app_assoc in Hs.
    destruct (Hz _ eq_refl s i o Hs) as (x1 & i1 & E1 & R1).
    destruct (He tail Logic.I x1 i1 o R1) as (x2 & i2 & E2 & R2).
    exists x2, i2. split; [|exact R2].
    unfold bind at 1 2. cbn [ret]. unfold bind at 1. rewrite E1.
    rewrite (sh_use p sh "TType" EAttributeError Hsh) by (unfold body_names; rewrite !in_app_iff; left; cbn; tauto).
    unfold bind. cbv zeta. change (T_STOP =? T_STOP) with true. cbn [ret]. rewrite E2.
    cbn [upd_fields map] in Hk. rewrite (Hk _ (Hbeg _ _ _ _ HR)). reflexivity.
  - apply andb_prop in Hwf as [Hw1 Hw2].
    cbn [enums_fields] in Hen. apply andb_prop in Hen as [Hen1 Hen2].
    assert (Hx := Forall_inv Hfs). assert (Hfs2 := Forall_inv_tail Hfs). cbn beta iota in Hx.
    assert (Hgin := Hin g (or_introl eq_refl)).
    assert (Hid1 := Hid g (or_introl eq_refl)).
    assert (Hid2 : forall g0, In g0 gs1 -> idok L (g_id g0) = true)
      by (intros; apply Hid; right; assumption).
    assert (Hin2 : forall g0, In g0 gs1 -> In g0 gs)
      by (intros; apply Hin; right; assumption).
    cbn [enc_fields map upd_fields] in *.
    change (f_ty (fdef g)) with (ety (g_ty g)) in *.
    change (f_id (fdef g)) with (g_id g) in *.
    remember (fold_bool (ety (g_ty g)) x) as ob eqn:Hob.
    rewrite !app_length in HF, Hfuel.
    pose proof (l_fbeg _ _ _ L f (g_id g) (code (ety (g_ty g))) ob) as Hl1.
    destruct fuel as [|fuel]; [lia|].
    assert (R1 := r_fbeg _ _ _ L c f (g_id g) (ety (g_ty g)) ob Hf Hid1
                    ltac:(rewrite Hob; apply (fold_bool_iff L E _ _ Hw1))).
    assert (R3 := r_fend _ _ _ L c f (g_id g) ob Hf).
    apply (Rd_D _ _ _ _ _ _ _ d) in R1. apply (Rd_D _ _ _ _ _ _ _ d) in R3.
    assert (Hrp : rpos L (inF L f (g_id g) ob) (ety (g_ty g)) x)
      by (rewrite Hob; eapply rpos_field; eauto).
    destruct (gfind_In gs g Hnd Hgin) as (Eg & i & Ef & Hi).
    rewrite Ef in Hk. change (f_ty (fdef g)) with (ety (g_ty g)) in Hk.
    rewrite Z.eqb_refl in Hk.
    assert (R2 : RD d (okT L) (inF L f (g_id g) ob) (nxt L (inF L f (g_id g) ob))
             (enc L E (inF L f (g_id g) ob) (ety (g_ty g)) x) (rv (g_ty g))
             (lift p (g_ty g) (proj E E (ety (g_ty g)) (ety (g_ty g)) x))).
    { apply (tailQ_weak L (ety (g_ty g))). apply Hx; auto. lia. }
    remember (proj E E (ety (g_ty g)) (ety (g_ty g)) x) as y eqn:Hy.
    assert (Hyok : okv (g_ty g) y) by (rewrite Hy; apply Hokv; assumption).
    destruct (Hput acc (begin a (code (ety (g_ty g))) (g_id g)) i g y
                (Hbeg _ _ _ _ HR) Hi Hyok) as (a1 & Ea1 & HR1).
    assert (R4 := IH gs1 Hin2 Hfs2 Hokv c (aft L f (g_id g)) fuel _ a1 Hc
                    (p_fA _ _ _ L _ _ _ Hf) Hid2 Hw2 Hen2 ltac:(lia)
                    ltac:(lia) HR1 Hk).
    assert (R34 := Rd_bind _ _ _ _ _ _ _ _ _ _ (fun _ =>
       a' <- gread_fields P fuel F sh rv gs begin put a1 ;; readStructEnd P ;;; k a')
       _ _ R3 (fun _ _ => Logic.I) R4).
    intros tail Ht s i0 o Hs. rewrite <- app_assoc in Hs.
    destruct (R1 _ Logic.I s i0 o Hs) as (x1 & i1 & E1 & Q1).
    rewrite <- app_assoc in Q1.
    assert (Hq : okT L ((e_fend L ++ enc_fields L E (aft L f (g_id g)) fs (map fdef gs1))
                        ++ tail))
      by (rewrite <- app_assoc; apply (t_fend _ _ _ L)).
    destruct (R2 _ Hq x1 i1 o Q1) as (x2 & i2 & E2 & Q2).
    destruct (R34 tail Ht x2 i2 o Q2) as (x3 & i3 & E3 & Q3).
    exists x3, i3. split; [|exact Q3]. rewrite <- E3.
    cbn [gread_fields].
    rewrite (sh_use p sh "iprot" EAttributeError Hsh) by (unfold body_names; rewrite !in_app_iff; left; cbn; tauto).
    rewrite bind_assoc. unfold bind at 1. cbn [ret].
    rewrite bind_assoc, (bind_ok _ _ _ _ _ E1).
    rewrite (sh_use p sh "TType" EAttributeError Hsh) by (unfold body_names; rewrite !in_app_iff; left; cbn; tauto).
    rewrite bind_assoc. unfold bind at 1. cbn [ret]. cbv zeta.
    rewrite code_not_stop, Eg, Z.eqb_refl.
    rewrite bind_assoc, (bind_ok _ _ _ _ _ E2). rewrite Ea1. cbn [lift_out].
    rewrite bind_assoc. unfold bind at 1. cbn [ret].
    rewrite bind_assoc. reflexivity.
  - apply andb_prop in Hwf as [Hw1 Hw2].
    assert (Hfs2 := Forall_inv_tail Hfs).
    cbn [enc_fields map upd_fields enums_fields andb] in *.
    apply (IH gs1) with (acc := acc); auto;
      intros; (apply Hin || apply Hid); right; assumption.
Qed.

Lemma proj_okv t v : wfd (dok L) E SL CL (ety t) v = true ->
  okv t (proj E E (ety t) (ety t) v).
Proof.
  intros H. destruct t as [bt|e td|imm t|imm t|imm kt vt|n]; try exact Logic.I.
  rewrite proj_leaf by reflexivity. apply wf_okv. assumption.
Qed.

Lemma hash_leaf t : ghashable t = true -> base_ty (ety t) = true.
Proof. unfold ghashable. apply hashable_base. Qed.

Lemma fold_pset t l : ghashable t = true -> Forall (okv t) l -> forall acc, Forall (okv t) acc ->
  fold_left (fun a x => pset_add a (lift p t x)) l (map (lift p t) acc)
  = map (lift p t) (fold_left set_add l acc).
Proof.
  intros Hh Hl. induction Hl as [|x l Hx _ IH]; intros acc Ha; cbn [fold_left]; [reflexivity|].
  rewrite pset_add_lift by assumption. apply IH. apply set_add_ok; assumption.
Qed.

Definition lift2 kt vt (kv : value * value) : pv * pv :=
  match kv with (k, x) => (lift p kt k, lift p vt x) end.

Lemma fold_pdict kt vt (g : value * value -> value * value) l : ghashable kt = true ->
  Forall (fun kv => okv kt (fst (g kv))) l -> forall acc, Forall (fun e => okv kt (fst e)) acc ->
  fold_left (fun a kv => pdict_set a (lift p kt (fst (g kv))) (lift p vt (snd (g kv)))) l
    (map (lift2 kt vt) acc)
  = map (lift2 kt vt) (fold_left (fun a kv => dict_set a (fst (g kv)) (snd (g kv))) l acc).
Proof.
  intros Hh Hl. induction Hl as [|x l Hx _ IH]; intros acc Ha; cbn [fold_left]; [reflexivity|].
  unfold lift2 at 1. rewrite pdict_set_lift by assumption. apply IH. apply dict_set_ok; assumption.
Qed.

Ltac inb := unfold body_names; rewrite !in_app_iff; left; cbn; tauto.

Lemma gread_enc v : forall d t c dfuel sh, 0 <= d -> sh_ok p sh ->
  base_leaves t = true -> rpos L c (ety t) v ->
  wfd (dok L) E SL CL (ety t) v = true ->
  d + Z.of_nat (sdepth v) <= 64 -> (sdepth v <= dfuel)%nat ->
  (length (enc L E c (ety t) v) <= F)%nat ->
  enums_ok p t v = true ->
  RD d (tailQ L (ety t)) c (nxt L c) (enc L E c (ety t) v)
     (gread_ty p P sh (gread_struct p P dfuel F) F t)
     (lift p t (proj E E (ety t) (ety t) v)).
Proof.
  induction v using value_rect';
    intros d t c dfuel sh Hd0 Hsh Hbl Hpos Hwf Hd Hdf HF Hen.
  1-6: assert (Hb : base_ty (ety t) = true)
         by (destruct (ety t); try reflexivity; discriminate Hwf);
       rewrite proj_leaf by assumption;
       pose proof (wf_okv t _ Hwf) as Hokv;
       rewrite wf_base in Hwf by assumption;
       match goal with |- RD _ _ _ _ (enc _ _ _ _ ?v) _ _ =>
         replace (enc L E c (ety t) v) with (e_base L c (ety t) v)
           by (destruct (ety t); try reflexivity; discriminate Hb);
         apply (Rd_weak _ _ (okT L));
           [| destruct (ety t); try discriminate Hb; cbn; auto];
         assert (Rb : RD d (okT L) c (nxt L c) (e_base L c (ety t) v)
                        (read_base P (ety t)) v)
           by (apply Rd_D; apply r_base; auto;
               destruct (ety t); try discriminate Hwf; exact Hpos)
       end;
       destruct t as [bt|e td|imm t|imm t|imm kt vt|n]; try discriminate Hb;
       [ cbn [gread_ty ety]; rewrite lift_base; apply Rd_use;
         [destruct bt; try reflexivity; apply (sh_use p); [assumption|inb]|];
         apply (Rd_map (rrep L)); exact Rb | ];
       try (destruct Hokv as [? Hokv]; discriminate Hokv).
  - (* an enum value *)
    cbn [gread_ty ety lift enums_ok] in *. 
    intros tail Ht x i o Hx. destruct (Rb tail Ht x i o Hx) as (x1 & i1 & E1 & Q1).
    exists x1, i1. split; [|exact Q1]. revert E1.
    cbn [read_base]. unfold bind. destruct (readI32 P _) as [[z'|e0|] s1]; try discriminate.
    intros E1. injection E1 as -> ->. destruct (o_enum p) eqn:Ho; [|reflexivity].
    rewrite (sh_use p sh (enum_name p e) ETypeError Hsh (enum_name_in p e)).
    cbn [ret enum_call]. rewrite Hen. reflexivity.
  - destruct t as [bt|e td|imm t|imm t|imm kt vt|n]; try discriminate Hwf;
      [cbn [base_leaves] in Hbl; destruct bt; try discriminate Hwf; discriminate Hbl|].
    cbn [ety base_leaves] in *.
    cbn [wfd] in Hwf. apply andb_prop in Hwf as [Hn Hl]. cbn [rpos tailQ] in *.
    rewrite enc_list in *. unfold len_le in Hn. cbn [gread_ty].
    rewrite app_length in HF. apply (Rd_weak _ _ anyT); [|intros; exact Logic.I].
    assert (Hlp := p_L _ _ _ L c Hpos).
    pose proof (enc_elems_count L E (ety t) l c _ Hlp Hl).
    cbn [enums_ok] in Hen. rewrite forallb_forall in Hen.
    rewrite Forall_forall in H.
    assert (Hsd := sdepth_list l (sdepth (VList l)) (le_n _)).
    rewrite Forall_forall in Hsd.
    eapply Rd_bind; [apply Rd_D, r_lbeg; [exact Hpos|lia]|intros; apply elems_start; assumption|].
    cbn beta iota. apply Rd_use; [apply (sh_use p); [assumption|inb]|].
    eapply loop_elems with
      (h := fun acc x => acc ++ [lift p t (proj E E (ety t) (ety t) x)]) (F := F);
      eauto; try lia.
    + intros x Hx e acc He Hle.
      apply (Rd_map (rrep L) _ _ _ _ _ _ _ (fun v => acc ++ [v])).
      apply (tailQ_weak L (ety t)). rewrite forallb_forall in Hl.
      pose proof (Hsd x Hx). apply H; auto; try lia.
      apply rpos_epos; assumption.
    + intros e' He'. rewrite fold_snoc. cbn [app proj lift]. rewrite map_map.
      apply Rd_use; [destruct imm; [apply (sh_use p); [assumption|inb]|reflexivity]|].
      apply (Rd_map (rrep L) _ _ _ _ _ _ tt
               (fun _ => PList imm (map (fun x => lift p t (proj E E (ety t) (ety t) x)) l))).
      apply Rd_D. eapply r_lend; eauto.
  - destruct t as [bt|e td|imm t|imm t|imm kt vt|n]; try discriminate Hwf;
      [cbn [base_leaves] in Hbl; destruct bt; try discriminate Hwf; discriminate Hbl|].
    cbn [ety base_leaves] in *.
    cbn [wfd] in Hwf. apply andb_prop in Hwf as [Hn Hl].
    apply andb_prop in Hn as [Hn Hnd]. apply andb_prop in Hn as [Hn Hh].
    assert (Hba := hashable_base _ Hh). change (ghashable t = true) in Hh.
    assert (Hproj : map (proj E E (ety t) (ety t)) l = l).
    { rewrite <- (map_id l) at 2. apply map_ext. intros. apply proj_leaf. assumption. }
    cbn [rpos tailQ] in *.
    rewrite enc_set in *. unfold len_le in Hn. cbn [gread_ty].
    rewrite app_length in HF. apply (Rd_weak _ _ anyT); [|intros; exact Logic.I].
    assert (Hlp := p_L _ _ _ L c Hpos).
    pose proof (enc_elems_count L E (ety t) l c _ Hlp Hl).
    cbn [enums_ok] in Hen. rewrite forallb_forall in Hen.
    rewrite Forall_forall in H.
    assert (Hsd := sdepth_set l (sdepth (VSet l)) (le_n _)).
    rewrite Forall_forall in Hsd.
    apply Rd_use; [apply (sh_use p); [assumption|inb]|].
    eapply Rd_bind; [apply Rd_D, r_tbeg; [exact Hpos|lia]|intros; apply elems_start; assumption|].
    cbn beta iota. apply Rd_use; [apply (sh_use p); [assumption|inb]|].
    eapply loop_elems with (h := fun acc x => pset_add acc (lift p t x)) (F := F);
      eauto; try lia.
    + intros x Hx e acc He Hle. rewrite Hh.
      apply (Rd_map (rrep L) _ _ _ _ _ _ _ (pset_add acc)).
      apply (tailQ_weak L (ety t)). rewrite forallb_forall in Hl.
      pose proof (Hsd x Hx).
      rewrite <- (proj_leaf t x) at 2 by assumption.
      apply H; auto; try lia. apply rpos_epos; assumption.
    + intros e' He'.
      change (@nil pv) with (map (lift p t) []).
      rewrite fold_pset; auto.
      2:{ rewrite Forall_forall. intros x Hx. apply wf_okv.
          rewrite forallb_forall in Hl. auto. }
      rewrite fold_set_add; [|assumption|intros; reflexivity].
      cbn [app proj lift]. rewrite Hproj.
      intros tail Ht x i o Hx.
      destruct (Rd_map (rrep L) d anyT e' (nxt L c) (e_lend L) (readSetEnd P) tt
                  (fun _ => PSet imm (map (lift p t) l))
                  (Rd_D _ _ _ _ _ _ _ d (r_tend _ _ _ L c e' Hpos He')) tail Ht x i o Hx)
        as (x1 & i1 & E1 & Q1).
      exists x1, i1. split; [|exact Q1]. rewrite <- E1. unfold bind.
      destruct (readSetEnd P _) as [[u|e0|] s1]; try reflexivity.
      destruct imm; [rewrite (sh_use p sh "frozenset" ETypeError Hsh) by inb|]; reflexivity.
  - destruct t as [bt|e td|imm t|imm t|imm kt vt|n]; try discriminate Hwf;
      [cbn [base_leaves] in Hbl; destruct bt; try discriminate Hwf; discriminate Hbl|].
    cbn [ety base_leaves] in *. apply andb_prop in Hbl as [Hbk Hbv].
    cbn [wfd] in Hwf. apply andb_prop in Hwf as [Hn Hl].
    apply andb_prop in Hn as [Hn Hnd]. apply andb_prop in Hn as [Hn Hh].
    assert (Hba := hashable_base _ Hh). change (ghashable kt = true) in Hh.
    cbn [rpos tailQ] in *.
    rewrite enc_map in *. unfold len_le in Hn. cbn [gread_ty].
    rewrite app_length in HF. apply (Rd_weak _ _ anyT); [|intros; exact Logic.I].
    assert (Hlp := p_M _ _ _ L c Hpos).
    pose proof (enc_items_count L E (ety kt) (ety vt) l c _ Hlp Hl).
    cbn [enums_ok] in Hen. rewrite forallb_forall in Hen.
    rewrite Forall_forall in H.
    assert (Hsd := sdepth_map l (sdepth (VMap l)) (le_n _)).
    rewrite Forall_forall in Hsd.
    eapply Rd_bind; [apply Rd_D, r_mbeg; [exact Hpos|lia]|intros; exact Logic.I|].
    assert (Hmr : exists a b, mret L (code (ety kt)) (code (ety vt)) (Z.of_nat (length l))
              = (a, b, Z.of_nat (length l))).
    { destruct l as [|kv l].
      - pose proof (mret_zero _ _ _ L (code (ety kt)) (code (ety vt))) as Hz.
        cbn [length]. change (Z.of_nat 0) with 0.
        destruct (mret L (code (ety kt)) (code (ety vt)) 0) as [[a b] n]. cbn in Hz. subst n.
        eauto.
      - exists (code (ety kt)), (code (ety vt)).
        apply (mret_pos _ _ _ L). cbn [length]. lia. }
    destruct Hmr as (ka' & va' & ->).
    cbn beta iota. apply Rd_use; [apply (sh_use p); [assumption|inb]|].
    remember (fun kv : value * value =>
                match kv with
                | (k, x) => (proj E E (ety kt) (ety kt) k, proj E E (ety vt) (ety vt) x)
                end) as g eqn:Hg.
    eapply loop_items with
      (h := fun acc kv => pdict_set acc (lift p kt (fst (g kv))) (lift p vt (snd (g kv)))) (F := F);
      eauto; try lia.
    + intros [k x] Hx c' e acc He Hle1 Hle2. cbn [fst snd] in *.
      rewrite forallb_forall in Hl.
      specialize (Hl _ Hx). specialize (H _ Hx). specialize (Hsd _ Hx).
      specialize (Hen _ Hx). cbn [fst snd] in *.
      apply andb_prop in Hl as [Hlk Hlx]. destruct H as [IHk IHx].
      apply andb_prop in Hen as [Henk Henx].
      destruct Hsd as [Hsk Hsx].
      eapply Rd_bind with (v := lift p kt (proj E E (ety kt) (ety kt) k)).
      * apply (tailQ_weak L (ety kt)). apply IHk; auto; try lia.
        apply rpos_epos. eapply p_Mk; eauto.
      * intros t _. apply enc_start; auto. eapply p_Mk; eauto.
      * rewrite Hh, Hg. cbn [fst snd].
        apply (Rd_map (rrep L) _ _ _ _ _ _ _
                 (fun v => pdict_set acc (lift p kt (proj E E (ety kt) (ety kt) k)) v)).
        apply (tailQ_weak L (ety vt)). apply IHx; auto; try lia.
        apply rpos_epos. eapply p_Mv; eauto.
    + intros e' He'.
      change (@nil (pv * pv)) with (map (lift2 kt vt) []).
      rewrite fold_pdict; auto.
      2:{ rewrite Forall_forall. intros [k x] Hx. rewrite Hg. cbn [fst].
          rewrite proj_leaf by assumption. apply wf_okv.
          rewrite forallb_forall in Hl. specialize (Hl _ Hx). cbn beta iota in Hl.
          apply andb_prop in Hl as [Hlk _]. assumption. }
      rewrite fold_dict_set; auto.
      2:{ intros [k x] _. rewrite Hg. cbn [fst]. apply proj_leaf. assumption. }
      cbn [app proj lift]. rewrite <- Hg. fold (lift2 kt vt).
      intros tail Ht x i o Hx.
      destruct (Rd_map (rrep L) d anyT e' (nxt L c) (e_mend L) (readMapEnd P) tt
                  (fun _ => PMap imm (map (lift2 kt vt) (map g l)))
                  (Rd_D _ _ _ _ _ _ _ d (r_mend _ _ _ L c e' Hpos He')) tail Ht x i o Hx)
        as (x1 & i1 & E1 & Q1).
      exists x1, i1. split; [|exact Q1]. rewrite <- E1. unfold bind.
      destruct (readMapEnd P _) as [[u|e0|] s1]; try reflexivity.
      destruct imm; [rewrite (sh_use p sh "TFrozenDict" ETypeError Hsh) by inb|]; reflexivity.
  - destruct t as [bt|e td|imm t|imm t|imm kt vt|m]; try discriminate Hwf;
      [cbn [base_leaves] in Hbl; destruct bt; try discriminate Hwf; discriminate Hbl|].
    cbn [ety] in *.
    rewrite wf_struct in Hwf. apply andb_prop in Hwf as [Hn Hf].
    apply Nat.eqb_eq in Hn. subst m. cbn [rpos tailQ] in *.
    assert (Hnth := erased_nth p n). rewrite Hnth in Hf.
    destruct (nth_error (p_classes p) n) as [k|] eqn:Ek; [|discriminate Hf].
    cbn [option_map] in *.
    destruct (HE _ _ Hnth) as [Hnd Hid].
    rewrite (enc_struct L E c n n fs _ Hnth) in *. rewrite app_length in HF.
    rewrite (enums_struct _ _ _ k Ek) in Hen.
    rewrite (proj_struct _ _ _ _ _ _ _ _ Hnth Hnth).
    rewrite <- (map_combine_fresh
                  (fun d a => look E E d a fs (map fdef (k_fields k))) (map fdef (k_fields k))).
    rewrite <- upd_fields_look by (auto; unfold fresh; apply map_length).
    rewrite fresh_fdef.
    cbn [gread_ty]. apply Rd_use; [apply (sh_use p); [assumption|apply class_name_in]|].
    assert (Hs1 : (1 <= sdepth (VStruct n fs))%nat) by (cbn [sdepth]; lia).
    destruct dfuel as [|dfuel]; [lia|]. cbn [gread_struct]. rewrite Ek.
    assert (Hsd := sdepth_struct n fs (sdepth (VStruct n fs) - 1)).
    specialize (Hsd ltac:(lia)). rewrite Forall_forall in Hsd.
    rewrite Forall_forall in H.
    destruct (Hok k (nth_error_In _ _ Ek)) as (Hp & Hu & Ht).
    assert (Hshm : map (fun f => maybe_escape_identifier (g_name f)) (k_fields k) = names k).
    { unfold names. apply map_ext_in. intros f Hf'. apply (esc_plain k); assumption. }
    rewrite lift_struct, Ek.
    destruct (k_imm k) eqn:Hi; cbv zeta.
    + rewrite Hshm.
      assert (Hsh' : sh_ok p (names k)) by (intros m Hm; apply Hu; assumption).
      apply Rd_depth; [lia|].
      eapply Rd_bind; [apply Rd_D, r_sbeg; exact Hpos|intros; exact Logic.I|].
      apply (gread_fields_enc (d + 1) (k_fields k) _ _ _ _ (locals_rel p (k_fields k))
        (fun env => use (names k) "cls" ETypeError ;;;
           a <- lift_out (construct p k (locals_kw (k_fields k) env)) ;;
           ret (PObj n a))) with (acc := map g_def (k_fields k)); auto; try lia.
      * intros. apply locals_header; assumption.
      * intros acc a i g v HR Hg Hv. eexists. split; [reflexivity|].
        apply locals_put; assumption.
      * rewrite Forall_forall. intros [x|] Hx; [|exact Logic.I].
        specialize (H _ Hx). specialize (Hsd _ Hx). cbn beta iota in *.
        intros g c' Hg Hp' Hw Hle Hen'. apply H; auto; try lia.
        apply (proj1 (Ht g Hg)).
      * intros. apply proj_okv. assumption.
      * apply (p_fS _ _ _ L); assumption.
      * intros g Hg. apply (Hid (fdef g)). apply in_map. assumption.
      * apply locals_init; assumption.
      * intros env HR. rewrite (sh_use p (names k) "cls" ETypeError Hsh') by inb.
        rewrite (locals_kw_rel p k _ env Hp HR).
        rewrite construct_lift; [reflexivity|assumption|apply HR].
    + rewrite construct_default by assumption. cbn [lift_out].
      apply (Rd_use d anyT c (nxt L c) _ (ret tt)); [reflexivity|].
      cbn beta.
      change (RD d anyT c (nxt L c) (e_sbeg L c ++ enc_fields L E (inS L c) fs (map fdef (k_fields k)))
        (method (lift_fields p (map g_def (k_fields k)) (k_fields k)) "read" ;;;
         with_depth (readStructBegin P ;;;
         a <- gread_fields P F F [] (gread_ty p P [] (gread_struct p P dfuel F) F)
                (k_fields k) (fun a _ _ => a)
                (fun f v a => setattr p k a (maybe_escape_identifier (g_name f)) (Some v))
                (lift_fields p (map g_def (k_fields k)) (k_fields k)) ;;
         readStructEnd P ;;; ret (PObj n a)))
        (PObj n (lift_fields p (upd_fields E E (map fdef (k_fields k)) fs
            (map fdef (k_fields k)) (map g_def (k_fields k))) (k_fields k)))).
      apply Rd_use; [apply method_ok; auto; [apply map_length|cbn; tauto]|].
      apply Rd_depth; [lia|].
      eapply Rd_bind; [apply Rd_D, r_sbeg; exact Hpos|intros; exact Logic.I|].
      apply (gread_fields_enc (d + 1) (k_fields k) _ _ _ _
        (fun acc a => a = lift_fields p acc (k_fields k) /\ okfs (k_fields k) acc)
        (fun a => ret (PObj n a))) with (acc := map g_def (k_fields k)); auto; try lia.
      * intros m [].
      * intros acc a i g v [-> Hfs] Hg Hv. eexists.
        assert (Hin := nth_error_In _ _ Hg).
        rewrite (esc_plain k g Hp Hin).
        rewrite setattr_field; auto; [|apply Hp].
        split; [reflexivity|]. split.
        -- apply lift_fields_upd; [apply Hp|apply Hfs|assumption].
        -- eapply okfs_set; eauto.
      * rewrite Forall_forall. intros [x|] Hx; [|exact Logic.I].
        specialize (H _ Hx). specialize (Hsd _ Hx). cbn beta iota in *.
        intros g c' Hg Hp' Hw Hle Hen'. apply H; auto; try lia.
        -- intros m [].
        -- apply (proj1 (Ht g Hg)).
      * intros. apply proj_okv. assumption.
      * apply (p_fS _ _ _ L); assumption.
      * intros g Hg. apply (Hid (fdef g)). apply in_map. assumption.
      * split; [reflexivity|apply okfs_fresh; assumption].
      * intros a [-> _]. reflexivity.
Qed.

End Enc.
