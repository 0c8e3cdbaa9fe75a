(** Classes whose fields have no ids in the IDL, with an accelerated protocol:
    their [thrift_spec] is empty, so the encoder writes no field and the decoder
    skips them all. *)
From Coq Require Import String.
From Coq Require Import ZArith List Bool Lia Sorted.
From Coq Require Import Init.Byte.
From Coq Require Import ZifyBool ZifyNat ZifyN.
From Verif Require Import Base Bytes Utf8 Proto Spec Laws RoundTrip StructFacts Binary
  BinaryLaws SpecBinary Compact CompactLaws SpecCompact InstFacts Dynamic DynamicFacts
  DynamicRead SpecDynamic Ext ExtFacts ExtRead SpecExt ExtReadGen ExtReadBinary
  ExtReadCompact ExtReadFacts.
Import ListNotations.
Open Scope Z_scope.

Lemma unnumbered_spec d ds : f_id d < 0 -> thrift_spec (d :: ds) = [].
Proof. intros H. unfold thrift_spec. destruct (Z.leb_spec 0 (f_id d)); [lia|reflexivity]. Qed.

Definition shallow (fs : list (option value)) : bool :=
  forallb (fun f => match f with Some x => (vdepth x <=? 63)%nat | None => true end) fs.

Section Lost.
Context {X} {D : dimpl X} {SL CL : Z} (L : laws (proto_of D) SL CL)
  (Hsk : forall c t v,
       match v with VBool b => bpos L c b | _ => vpos L c end ->
       base_ty t = true -> base_okd (dok L) SL t v = true ->
       Rd (rrep L) (okT L) c (nxt L c) (e_base L c t v) (sk_base D t) tt)
  (env : schema) (HW : schema_okd (idok L) env).

Lemma cread_fields_lost {B} F sd (rv : ty -> M X value)
    (k : list (option value) -> M X B) w acc fs : (63 <= sd)%nat ->
  k acc = ret w ->
  forall ds c f fuel, spos L c -> fpos L c f ->
    (forall dd, In dd ds -> idok L (f_id dd) = true) ->
    wf_fields (D := dok L) env SL CL fs ds = true ->
    shallow fs = true ->
    (length (enc_fields L env f fs ds) <= F)%nat ->
    (length (enc_fields L env f fs ds) <= fuel)%nat ->
    RdD (rrep L) 1 anyT f (nxt L c) (enc_fields L env f fs ds)
       (acc' <- cread_fields D fuel F sd rv [] acc ;;
        readStructEnd (proto_of D) ;;; k acc') w.
Proof.
  intros Hsd Hk.
  induction fs as [|[x|] fs IH]; intros [|dd ds] c f fuel Hc Hf Hid
    Hwf Hdr HF Hfuel; cbn [wf_fields] in Hwf; try discriminate.
  - pose proof (enc_fields_pos L env [] f []) as Hpos.
    destruct fuel as [|fuel]; [lia|]. cbn [enc_fields].
    intros tail _ s i o Hs.
    destruct (r_stop _ _ _ L c f Hf tail) as [z Hz].
    pose proof (r_send _ _ _ L c f Hc Hf) as He.
    apply (Rd_D _ _ _ _ _ _ _ 1) in Hz. apply (Rd_D _ _ _ _ _ _ _ 1) in He.
    rewrite <- app_assoc in Hs.
    destruct (Hz _ eq_refl s i o Hs) as (x1 & i1 & E1 & R1).
    destruct (He tail I x1 i1 o R1) as (x2 & i2 & E2 & R2).
    exists x2, i2. split; [|exact R2].
    cbn [proto_of readFieldBegin] in E1. cbn [cread_fields].
    unfold bind at 1. unfold bind at 1. rewrite E1.
    change (T_STOP =? T_STOP) with true. cbn [ret]. unfold bind. rewrite E2.
    rewrite Hk. reflexivity.
  - apply andb_prop in Hwf as [Hw1 Hw2].
    cbn [shallow forallb] in Hdr. apply andb_prop in Hdr as [Hdr1 Hdr2].
    assert (Hid1 := Hid dd (or_introl eq_refl)).
    assert (Hid2 : forall d0, In d0 ds ->
              idok L (f_id d0) = true)
      by (intros; apply Hid; right; assumption).
    cbn [enc_fields] in *. set (ob := fold_bool (f_ty dd) x) in *.
    rewrite !app_length in HF, Hfuel.
    pose proof (l_fbeg _ _ _ L f (f_id dd) (code (f_ty dd)) ob) as Hl1.
    destruct fuel as [|fuel]; [lia|].
    assert (R1 := r_fbeg _ _ _ L c f (f_id dd) (f_ty dd) ob Hf Hid1
                    (fold_bool_iff L env _ _ Hw1)).
    assert (R3 := r_fend _ _ _ L c f (f_id dd) ob Hf).
    apply (Rd_D _ _ _ _ _ _ _ 1) in R1. apply (Rd_D _ _ _ _ _ _ _ 1) in R3.
    assert (Hrp : rpos L (inF L f (f_id dd) ob) (f_ty dd) x)
      by (eapply rpos_field; eauto).
    assert (R2 : RdD (rrep L) 1 (okT L) (inF L f (f_id dd) ob)
         (nxt L (inF L f (f_id dd) ob))
         (enc L env (inF L f (f_id dd) ob) (f_ty dd) x)
         (cskip D F sd (code (f_ty dd))) tt).
    { apply (tailQ_weak L (f_ty dd)).
      apply (cskip_enc L Hsk env); auto; lia. }
    assert (R4 := IH ds c (aft L f (f_id dd)) fuel Hc
                    (p_fA _ _ _ L _ _ _ Hf) Hid2 Hw2 Hdr2 ltac:(lia)
                    ltac:(lia)).
    assert (R34 := Rd_bind _ _ _ _ _ _ _ _ _ _ (fun _ =>
       acc' <- cread_fields D fuel F sd rv [] acc ;;
       readStructEnd (proto_of D) ;;; k acc')
       _ _ R3 (fun _ _ => I) R4).
    assert (R234 := Rd_bind _ _ _ _ _ _ _ _ _ _ (fun _ =>
       readFieldEnd (proto_of D) ;;;
       acc' <- cread_fields D fuel F sd rv [] acc ;;
       readStructEnd (proto_of D) ;;; k acc') _ _ R2
       ltac:(intros t _; rewrite <- app_assoc; apply (t_fend _ _ _ L)) R34).
    intros tail Ht s i o Hs. rewrite <- app_assoc in Hs.
    destruct (R1 _ I s i o Hs) as (x1 & i1 & E1 & Q1).
    destruct (R234 tail Ht x1 i1 o Q1) as (x2 & i2 & E2 & Q2).
    exists x2, i2. split; [|exact Q2]. rewrite <- E2.
    cbn [proto_of readFieldBegin] in E1. cbn [cread_fields].
    unfold bind at 1. rewrite (bind_ok _ _ _ _ _ E1). cbn beta iota.
    rewrite code_not_stop.
    assert (Hl : forall (tag : Z), (tag <? 0) || (Z.of_nat (length (@nil (option (nat * fielddef)))) <=? tag) = true)
      by (intros; cbn [length]; lia).
    cbn [length]. 
    match goal with |- context [if ?b then _ else _] => replace b with true by (cbn [length]; lia) end.
    unfold bind.
    destruct (cskip _ _ _ _ _) as [[[]|e0|] s2]; reflexivity.
  - apply andb_prop in Hwf as [Hw1 Hw2].
    cbn [enc_fields] in *. apply IH; auto.
    intros; apply Hid; right; assumption.
Qed.

Lemma cread_lost F k fs n d0 ds c :
  nth_error env n = Some (d0 :: ds) -> f_id d0 < 0 ->
  spos L c -> wfd (dok L) env SL CL (TStruct n) (VStruct n fs) = true ->
  (63 <= S k)%nat -> shallow fs = true ->
  (length (enc L env c (TStruct n) (VStruct n fs)) <= F)%nat ->
  RdD (rrep L) 0 anyT c (nxt L c) (enc L env c (TStruct n) (VStruct n fs))
    (cread_struct D env (S k) F n) (VStruct n (map f_def (d0 :: ds))).
Proof.
  intros E Hneg Hpos Hwf Hk Hsh HF.
  rewrite wf_struct in Hwf. apply andb_prop in Hwf as [_ Hf]. rewrite E in Hf.
  destruct (HW _ _ E) as [HndW HidW].
  rewrite (enc_struct L env c n n fs _ E) in *. rewrite app_length in HF.
  cbn [cread_struct]. rewrite E, (unnumbered_spec d0 ds Hneg).
  change (map f_def (d0 :: ds)) with (fresh (d0 :: ds)).
  apply (Rd_guard L Hsk); [lia|]. apply (Rd_scope L).
  eapply Rd_bind; [apply Rd_D, (r_sbeg _ _ _ L); exact Hpos|intros; exact I|].
  apply (Rd_ext L _ _ _ _ _
    (acc' <- cread_fields D F F (S k) (decodeValue D (cread_struct D env k F) F)
               [] (fresh (d0 :: ds)) ;;
     readStructEnd (proto_of D) ;;; ret (VStruct n acc'))).
  { intros s. unfold bind, ret.
    destruct (cread_fields _ _ _ _ _ _ _ s) as [[a|e|] s']; reflexivity. }
  apply (cread_fields_lost F (S k) (decodeValue D (cread_struct D env k F) F)
    (fun acc => ret (VStruct n acc))); auto; try lia.
  apply (p_fS _ _ _ L); assumption.
Qed.
End Lost.

Lemma lost_binary big sl cl SL CL env n d0 ds fs tail :
  x_limits sl cl SL CL -> schema_ok env ->
  nth_error env n = Some (d0 :: ds) -> f_id d0 < 0 ->
  wf env SL CL (TStruct n) (VStruct n fs) = true -> shallow fs = true ->
  fast_deserialize (dbinary big sl cl) tt env n
    (sb_value env (TStruct n) (VStruct n fs) ++ tail)
  = Ok (VStruct n (map f_def (d0 :: ds)), tail).
Proof.
  intros Hl HW E Hneg Hwf Hs. unfold fast_deserialize.
  set (v := VStruct n fs) in *.
  set (F := S (length (sb_value env (TStruct n) v ++ tail))).
  assert (HF : (length (sb_value env (TStruct n) v) <= F)%nat)
    by (unfold F; rewrite app_length; lia).
  assert (Ee : enc (xbinary_laws big sl cl SL CL Hl) env tt (TStruct n) v
               = sb_value env (TStruct n) v) by apply (enc_xbinary big sl cl SL CL Hl).
  destruct (cread_lost (xbinary_laws big sl cl SL CL Hl)
    (fun c t v _ => xs_base big sl cl SL CL Hl c t v) env HW F 65 fs n d0 ds tt
    E Hneg I Hwf ltac:(lia) Hs
    (eq_ind_r (fun z => (length z <= F)%nat) HF Ee) tail I tt
    (sb_value env (TStruct n) v ++ tail) []) as (x' & i' & E' & H').
  { fold v. rewrite Ee. reflexivity. }
  rewrite E'. cbn [inp]. cbn in H'. subst. reflexivity.
Qed.

Lemma lost_compact big sl cl SL CL env n d0 ds fs tail :
  x_limits sl cl SL CL -> schema_ok env ->
  nth_error env n = Some (d0 :: ds) -> f_id d0 < 0 ->
  wf env SL CL (TStruct n) (VStruct n fs) = true -> shallow fs = true ->
  fast_deserialize (dcompact big sl cl) crd_init env n
    (sc_value env (TStruct n) (VStruct n fs) ++ tail)
  = Ok (VStruct n (map f_def (d0 :: ds)), tail).
Proof.
  intros Hl HW E Hneg Hwf Hs. unfold fast_deserialize.
  set (v := VStruct n fs) in *.
  set (F := S (length (sc_value env (TStruct n) v ++ tail))).
  assert (HF : (length (sc_value env (TStruct n) v) <= F)%nat)
    by (unfold F; rewrite app_length; lia).
  assert (Ee : enc (xcompact_laws big sl cl SL CL Hl) env (mkxpos [] None) (TStruct n) v
               = sc_value env (TStruct n) v)
    by (apply (enc_xcompact big sl cl SL CL Hl); reflexivity).
  destruct (cread_lost (xcompact_laws big sl cl SL CL Hl)
    (xsc_base big sl cl SL CL Hl) env HW F 65 fs n d0 ds (mkxpos [] None)
    E Hneg eq_refl Hwf ltac:(lia) Hs
    (eq_ind_r (fun z => (length z <= F)%nat) HF Ee) tail I crd_init
    (sc_value env (TStruct n) v ++ tail) []) as (x' & i' & E' & H').
  { fold v. rewrite Ee. repeat split. }
  rewrite E'. cbn [inp]. cbn in H'. destruct H' as (-> & _). reflexivity.
Qed.
