(** Facts about IntoFast.v. *)
From Coq Require Import ZArith List Bool Lia.
From Coq Require Import Init.Byte.
From Coq Require Import ZifyBool ZifyNat ZifyN.
From Verif Require Import Base Bytes Utf8 Utf8Facts Proto Spec Laws RoundTrip StructFacts
  SpecBinary SpecCompact Dynamic DynamicFacts DynamicRead SpecDynamic Ext ExtRead
  SpecExt ExtReadGen ExtReadBinary ExtReadCompact ExtReadFacts PostFacts
  Into IntoFacts IntoRead IntoFast.
Import ListNotations.
Open Scope Z_scope.

Section Facts.
Context {X : Type}.
Variable D : dimpl X.
Variable env : schema.

Lemma cinto_fields_agree fuel : forall K sd rv spec acc,
  agree (cinto_fields D fuel K sd rv spec) (fun a => a) acc
        (cread_fields D fuel K sd rv spec acc).
Proof.
  induction fuel as [|f IH]; intros K sd rv spec acc s; [reflexivity|].
  cbn [cinto_fields cread_fields]. unfold ask, bind at 1.
  destruct (d_readFieldBegin D s) as [[[t id]|e|] s1]; try reflexivity.
  assert (S1 : agree (thn (call (cskip D K sd t)) (cinto_fields D f K sd rv spec))
                 (fun a => a) acc
                 (cskip D K sd t ;;; cread_fields D f K sd rv spec acc)).
  { intros s2. unfold thn, call, ask, bind.
    destruct (cskip D K sd t s2) as [[?|e|] s3]; try reflexivity. apply IH. }
  destruct (t =? T_STOP); [reflexivity|].
  destruct ((id <? 0) || _); [apply S1|].
  destruct (nth_error spec (Z.to_nat id)) as [[[i d]|]|]; try apply S1.
  destruct (negb _); [apply S1|]. clear S1.
  unfold thn at 1, attr, assign, ask, bind.
  destruct (rv (f_ty d) s1) as [[v|e|] s2]; try reflexivity. apply IH.
Qed.

Lemma cinto_struct_read k F n ds base : nth_error env n = Some ds ->
  agree (cinto_struct D env (S k) F n) (VStruct n) base
    (recursion_guard (read_scope D (
       acc <- cread_fields D F F (S k) (decodeValue D (cread_struct D env k F) F)
                (thrift_spec ds) base ;;
       ret (VStruct n acc)))).
Proof.
  intros E s. cbn [cinto_struct]. rewrite E.
  unfold guarded, recursion_guard. destruct (_ >? 64); [reflexivity|].
  unfold scoped, read_scope, thn, call, ask, try_finally, bind.
  destruct (d_readStructBegin D _) as [[[]|e|] s1]; try reflexivity.
  cbn beta iota delta [done].
  rewrite (cinto_fields_agree F F (S k) _ (thrift_spec ds) base s1).
  destruct (cinto_fields _ _ _ _ _ _ base s1) as [[[[]|e|] a] s2]; reflexivity.
Qed.

Lemma cinto_struct_fresh k F n ds : nth_error env n = Some ds ->
  agree (cinto_struct D env k F n) (VStruct n) (fresh ds) (cread_struct D env k F n).
Proof.
  destruct k as [|k]; intros E; [intros s; reflexivity|].
  intros s. cbn [cread_struct]. rewrite E. apply cinto_struct_read, E.
Qed.

(** * Uniformity *)

Lemma cinto_fields_uniform n fuel : forall K sd rv spec,
  uniform n (cinto_fields D fuel K sd rv spec).
Proof.
  induction fuel as [|f IH]; intros K sd rv spec.
  - intros s. eapply uniform_const. reflexivity.
  - cbn [cinto_fields]. apply uniform_ask. intros [t id].
    destruct (t =? T_STOP). { intros s. eapply uniform_const. reflexivity. }
    assert (N : uniform n (thn (call (cskip D K sd t)) (cinto_fields D f K sd rv spec)))
      by (apply uniform_thn; [apply uniform_call|apply IH]).
    destruct (_ || _); [exact N|].
    destruct (nth_error spec _) as [[[i d]|]|]; try exact N.
    destruct (negb _); [exact N|].
    apply uniform_thn; [|apply IH]. apply uniform_attr, uniform1_assign.
Qed.

Lemma cinto_struct_uniform k F m n : uniform n (cinto_struct D env k F m).
Proof.
  destruct k as [|k]; [intros s; eapply uniform_const; reflexivity|].
  cbn [cinto_struct]. destruct (nth_error env m) as [ds|];
    [|intros s; eapply uniform_const; reflexivity].
  intros s. unfold guarded. destruct (_ >? 64); [eapply uniform_const; reflexivity|].
  assert (U : uniform n (scoped D (cinto_fields D F F (S k)
    (decodeValue D (cread_struct D env k F) F) (thrift_spec ds)))).
  { apply uniform_thn; [apply uniform_call|]. intros s1.
    destruct (cinto_fields_uniform n F F (S k)
      (decodeValue D (cread_struct D env k F) F) (thrift_spec ds) s1)
      as (o & p & s' & Hp & Hu).
    exists o, p, (d_readStructEnd D s'). split; [exact Hp|].
    intros b Hb. rewrite Hu by exact Hb. reflexivity. }
  destruct (U (mkst (px s) (inp s) (out s) (depth s + 1))) as (o & p & s' & Hp & Hu).
  eexists o, p, _. split; [exact Hp|]. intros b Hb. rewrite Hu by exact Hb. reflexivity.
Qed.

(** * What is assigned is complete *)

Lemma set_nth_nth i (v : option value) : forall l j w,
  nth_error (set_nth i v l) j = Some w ->
  nth_error l j = Some w \/ (i = j /\ w = v).
Proof.
  induction i as [|i IH]; intros [|x l] [|j] w H; cbn [set_nth nth_error] in *; auto;
    try discriminate.
  - injection H as <-. auto.
  - destruct (IH l j w H) as [?|[-> ->]]; auto.
Qed.

Lemma cinto_fields_whole fuel : forall K sd rv ds base s o after s',
  sorted_ids ds ->
  cinto_fields D fuel K sd rv (thrift_spec ds) base s = (o, after, s') ->
  forall i w, nth_error after i = Some w ->
  nth_error base i = Some w
  \/ exists d x s1 s2, nth_error ds i = Some d /\ w = Some x /\ rv (f_ty d) s1 = (Ok x, s2).
Proof.
  induction fuel as [|f IH]; intros K sd rv ds base s o after s' Hs H i w Hw.
  { cbn [cinto_fields] in H. injection H as _ <- _. auto. }
  cbn [cinto_fields] in H. unfold ask in H at 1.
  destruct (d_readFieldBegin D s) as [[[t id]|e|] s1].
  2,3: injection H as _ <- _; auto.
  destruct (t =? T_STOP). { injection H as _ <- _. auto. }
  assert (S1 : forall s1, thn (call (cskip D K sd t)) (cinto_fields D f K sd rv (thrift_spec ds)) base s1
      = (o, after, s') ->
    nth_error base i = Some w
    \/ exists d x s1 s2, nth_error ds i = Some d /\ w = Some x /\ rv (f_ty d) s1 = (Ok x, s2)).
  { intros s2. unfold thn, call, ask.
    destruct (cskip D K sd t s2) as [[?|e|] s3]; intros E.
    - exact (IH _ _ _ _ _ _ _ _ _ Hs E i w Hw).
    - injection E as _ <- _. auto.
    - injection E as _ <- _. auto. }
  pose proof (clookup ds id Hs) as Hc.
  destruct ((id <? 0) || _); [exact (S1 s1 H)|].
  destruct (nth_error (thrift_spec ds) (Z.to_nat id)) as [[[j d]|]|]; try exact (S1 s1 H).
  destruct (negb _); [exact (S1 s1 H)|]. clear S1.
  symmetry in Hc. pose proof (find_field_nth ds id j d Hc) as Hj.
  unfold thn, attr, assign, ask in H.
  destruct (rv (f_ty d) s1) as [[v|e|] s2] eqn:Ev.
  - destruct (IH _ _ _ _ _ _ _ _ _ Hs H i w Hw) as [Hi|Hi]; [|auto].
    destruct (set_nth_nth _ _ _ _ _ Hi) as [?|[-> ->]]; [auto|].
    right. exists d, v, s1, s2. auto.
  - injection H as _ <- _. rewrite set_nth_same in Hw. auto.
  - injection H as _ <- _. rewrite set_nth_same in Hw. auto.
Qed.

End Facts.

(** * Messages as written *)

Lemma cinto_enc {X} {D : dimpl X} {SL CL} (L : laws (proto_of D) SL CL)
    (Hsk : forall c t v,
       match v with VBool b => bpos L c b | _ => vpos L c end ->
       base_ty t = true -> base_okd (dok L) SL t v = true ->
       Rd (rrep L) (okT L) c (nxt L c) (e_base L c t v) (sk_base D t) tt)
    envW envR R F k fs n m dsW dsR base c d kd :
  schema_okd (idok L) envW -> table_schema envR -> compat_env envW envR R ->
  R n m = true -> nth_error envW n = Some dsW -> nth_error envR m = Some dsR ->
  length base = length dsR -> 0 <= d -> spos L c ->
  d + Z.of_nat kd <= 64 -> (kd <= S k)%nat ->
  wfd (dok L) envW SL CL (TStruct n) (VStruct n fs) = true ->
  d + Z.of_nat (sdepth (VStruct n fs)) <= 64 -> (sdepth (VStruct n fs) <= S k)%nat ->
  (length (enc L envW c (TStruct n) (VStruct n fs)) <= F)%nat ->
  drop_within envW envR kd (TStruct n) (TStruct m) (VStruct n fs) = true ->
  forall tail x i o,
  rrep L c x i (enc L envW c (TStruct n) (VStruct n fs) ++ tail) ->
  exists s', cinto_struct D envR (S k) F m base (mkst x i o d)
             = (Ok tt, looked envW envR dsR fs dsW base, s').
Proof.
  intros HW HR HC Hnm EW ER Hlen H0 Hpos Hkd Hkk Hwf Hd Hdf HF Hdr tail x i o Hx.
  assert (HRD : RdD (rrep L) d anyT c (nxt L c) (enc L envW c (TStruct n) (VStruct n fs))
    (recursion_guard (read_scope D (
       acc <- cread_fields D F F (S k) (decodeValue D (cread_struct D envR k F) F)
                (thrift_spec dsR) base ;;
       ret (VStruct m acc))))
    (VStruct m (looked envW envR dsR fs dsW base))).
  { destruct (HC n m Hnm) as (dW & dR & EW' & ER' & Hcf).
    rewrite EW in EW'. injection EW' as <-. rewrite ER in ER'. injection ER' as <-.
    rewrite wf_struct in Hwf. apply andb_prop in Hwf as [_ Hf]. rewrite EW in Hf.
    destruct (HW _ _ EW) as [HndW HidW].
    assert (HsR : sorted_ids dsR) by exact (HR _ _ ER).
    assert (HndR : NoDup (map f_id dsR)) by (apply (id16_table _ HR _ _ ER)).
    rewrite (enc_struct L envW c n n fs dsW EW) in *. rewrite app_length in HF.
    rewrite (within_struct envW envR _ _ _ _ _ dsW dsR EW ER) in Hdr.
    assert (Hs1 : (1 <= sdepth (VStruct n fs))%nat) by (cbn [sdepth]; lia).
    assert (Hsd := sdepth_struct n fs (sdepth (VStruct n fs) - 1)).
    specialize (Hsd ltac:(lia)). rewrite Forall_forall in Hsd.
    apply (Rd_guard L Hsk); [lia|]. apply (Rd_scope L).
    eapply Rd_bind; [apply Rd_D, (r_sbeg _ _ _ L); exact Hpos|intros; exact I|].
    unfold looked. rewrite <- upd_fields_look by auto.
    apply (Rd_ext L _ _ _ _ _
      (acc' <- cread_fields D F F (S k)
                 (decodeValue D (cread_struct D envR k F) F)
                 (thrift_spec dsR) base ;;
       readStructEnd (proto_of D) ;;; ret (VStruct m acc'))).
    { intros s. unfold bind, ret.
      destruct (cread_fields _ _ _ _ _ _ _ s) as [[a|e|] s']; reflexivity. }
    apply (cread_fields_enc L Hsk envW envR R HW F (d + 1) dsR
      (decodeValue D (cread_struct D envR k F) F) (pred kd) (S k)
      (fun acc => ret (VStruct m acc))); auto; try lia.
    + rewrite Forall_forall. intros [y|] Hy; [|exact I].
      specialize (Hsd _ Hy). cbn beta iota in *.
      intros t tR' c' Hp Hw Hc' Hle Hdr'.
      apply (cread_enc L Hsk envW envR R HW HR HC) with (kd := pred kd); auto; lia.
    + apply (p_fS _ _ _ L); assumption. }
  destruct (HRD tail I x i o Hx) as (x1 & i1 & E1 & _).
  pose proof (cinto_struct_read D envR k F m dsR base ER (mkst x i o d)) as Ha.
  rewrite E1 in Ha.
  destruct (cinto_struct D envR (S k) F m base _) as [[[[]|e|] a] s'];
    cbn [fin] in Ha; try discriminate Ha.
  injection Ha as Ha _. exists s'. rewrite <- Ha. reflexivity.
Qed.

Lemma fast_binary_into big sl cl SL CL envW envR R imm n m fs dsW dsR base tail :
  x_limits sl cl SL CL ->
  schema_ok envW -> table_schema envR -> compat_env envW envR R -> R n m = true ->
  nth_error envW n = Some dsW -> nth_error envR m = Some dsR ->
  length base = length dsR -> imm m = false ->
  wf envW SL CL (TStruct n) (VStruct n fs) = true ->
  (sdepth (VStruct n fs) <= 64)%nat ->
  drop_within envW envR 64 (TStruct n) (TStruct m) (VStruct n fs) = true ->
  fast_into (dbinary big sl cl) envR imm tt m base
    (sb_value envW (TStruct n) (VStruct n fs) ++ tail)
  = (Ok tt, looked envW envR dsR fs dsW base).
Proof.
  intros Hl HW HR HC Hnm EW ER Hb Him Hwf Hd Hdr. unfold fast_into. rewrite Him.
  set (L := xbinary_laws big sl cl SL CL Hl).
  pose proof (enc_xbinary big sl cl SL CL Hl envW (VStruct n fs) (TStruct n)) as Ee.
  rewrite <- Ee.
  destruct (cinto_enc L (fun c t v _ => xs_base big sl cl SL CL Hl c t v) envW envR R
    (S (length (enc L envW tt (TStruct n) (VStruct n fs) ++ tail)))
    65 fs n m dsW dsR base tt 0 64 HW HR HC Hnm EW ER Hb ltac:(lia) I
    ltac:(lia) ltac:(lia) Hwf
    ltac:(lia) ltac:(lia) ltac:(rewrite app_length; lia) Hdr tail tt _ [] eq_refl)
    as (s' & E).
  subst L. rewrite E. reflexivity.
Qed.

Lemma fast_compact_into big sl cl SL CL envW envR R imm n m fs dsW dsR base tail :
  x_limits sl cl SL CL ->
  schema_ok envW -> table_schema envR -> compat_env envW envR R -> R n m = true ->
  nth_error envW n = Some dsW -> nth_error envR m = Some dsR ->
  length base = length dsR -> imm m = false ->
  wf envW SL CL (TStruct n) (VStruct n fs) = true ->
  (sdepth (VStruct n fs) <= 64)%nat ->
  drop_within envW envR 64 (TStruct n) (TStruct m) (VStruct n fs) = true ->
  fast_into (dcompact big sl cl) envR imm crd_init m base
    (sc_value envW (TStruct n) (VStruct n fs) ++ tail)
  = (Ok tt, looked envW envR dsR fs dsW base).
Proof.
  intros Hl HW HR HC Hnm EW ER Hb Him Hwf Hd Hdr. unfold fast_into. rewrite Him.
  set (L := xcompact_laws big sl cl SL CL Hl).
  assert (Ee : enc L envW (mkxpos [] None) (TStruct n) (VStruct n fs)
               = sc_value envW (TStruct n) (VStruct n fs))
    by (apply (enc_xcompact big sl cl SL CL Hl); reflexivity).
  rewrite <- Ee.
  destruct (cinto_enc L (xsc_base big sl cl SL CL Hl) envW envR R
    (S (length (enc L envW (mkxpos [] None) (TStruct n) (VStruct n fs) ++ tail)))
    65 fs n m dsW dsR base (mkxpos [] None) 0 64 HW HR HC Hnm EW ER Hb ltac:(lia) eq_refl
    ltac:(lia) ltac:(lia) Hwf
    ltac:(lia) ltac:(lia) ltac:(rewrite app_length; lia) Hdr tail crd_init _ []
    ltac:(repeat split))
    as (s' & E).
  subst L. rewrite E. reflexivity.
Qed.
