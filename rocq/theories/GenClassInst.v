(** Generated classes over memory buffers: writing and reading back, per
    protocol. *)
From Coq Require Import String.
From Coq Require Import ZArith List Bool Lia ZifyBool ZifyNat.
From Coq Require Import Init.Byte.
From Verif Require Import Base Bytes Utf8 Proto Spec Laws RoundTrip StructFacts InstFacts
  Binary BinaryLaws SpecBinary Compact CompactLaws SpecCompact WireFacts
  Json JsonText SpecJson JsonLaws JsonFacts Dynamic Ext ExtRead.
From Verif Require Import GenClass SpecClass GenClassFacts GenClassRead GenClassWrite GenClassDec.
Import ListNotations.
Open Scope Z_scope.

Lemma fast_serialize_any {X} (I : cimpl X) p x0 n fs k : field_ok I ->
  prog_ok p -> nth_error (p_classes p) n = Some k ->
  shaped p (GStruct n) (VStruct n fs) = true ->
  gfast_serialize p I x0 n (lift_fields p fs (k_fields k))
  = fast_serialize I x0 (erased p) n (VStruct n fs).
Proof.
  intros HI Hok Ek Hs. unfold gfast_serialize, fast_serialize, gfast_write, run.
  rewrite Ek, erased_nth, Ek. cbn [option_map].
  assert (Hp := proj1 (Hok k (nth_error_In _ _ Ek))).
  assert (Hl : length fs = length (k_fields k)).
  { rewrite shaped_struct, Ek in Hs. apply (shaped_len p). assumption. }
  rewrite !(method_ok p k fs) by (auto; cbn; tauto).
  rewrite (gvalidate_obj p k fs Hp Hl).
  unfold bind at 1. cbn [ret]. unfold bind at 1. cbn [ret].
  destruct (validate (map fdef (k_fields k)) fs); cbn [lift_out]; [|reflexivity].
  unfold bind at 1. cbn [ret]. unfold encode_impl.
  pose proof (gencode_lift p I HI) as H.
  specialize (H (fun k Hk => proj1 (proj1 (Hok k Hk))) (VStruct n fs) (GStruct n) eq_refl).
  specialize (H (fun k Hk f Hf => proj1 (proj2 (proj2 (Hok k Hk)) f Hf)) Hs).
  rewrite lift_struct, Ek in H. rewrite H. cbn [ety].
  destruct (encodeValue I (erased p) (TStruct n) (VStruct n fs) _) as [[u|e|] s]; reflexivity.
Qed.

Lemma shaped_classes p q v : p_classes p = p_classes q -> forall t,
  shaped p t v = shaped q t v.
Proof.
  intros Hc.
  induction v using value_rect'; intros [bt|e td|imm t|imm t|imm kt vt|m]; try reflexivity;
    cbn [shaped].
  - induction H as [|x l Hx _ IH]; cbn [forallb]; [reflexivity|]. rewrite Hx, IH. reflexivity.
  - induction H as [|x l Hx _ IH]; cbn [forallb]; [reflexivity|]. rewrite Hx, IH. reflexivity.
  - induction H as [|[a b] l [Ha Hb] _ IH]; cbn [forallb]; [reflexivity|].
    cbn [fst snd] in *. rewrite Ha, Hb, IH. reflexivity.
  - rewrite Hc. destruct (nth_error (p_classes q) n) as [k|]; [|reflexivity].
    generalize (k_fields k). induction H as [|f fs Hf _ IH]; intros [|g gs]; try reflexivity.
    rewrite IH. destruct f; [rewrite Hf|]; reflexivity.
Qed.

Lemma wf_shaped {D} p SL CL v : forall t,
  (forall k, In k (p_classes p) -> forall f, In f (k_fields k) -> base_leaves (g_ty f) = true) ->
  base_leaves t = true ->
  wfd D (erased p) SL CL (ety t) v = true -> shaped p t v = true.
Proof.
  intros t Hbl. revert t.
  induction v using value_rect'; intros [bt|e td|imm t|imm t|imm kt vt|m] Hb Hwf;
    try reflexivity; cbn [ety base_leaves] in *; try discriminate Hwf.
  - cbn [wfd] in Hwf. apply andb_prop in Hwf as [_ Hl]. cbn [shaped].
    rewrite forallb_forall in *. rewrite Forall_forall in H. auto.
  - cbn [wfd] in Hwf. apply andb_prop in Hwf as [_ Hl]. cbn [shaped].
    rewrite forallb_forall in *. rewrite Forall_forall in H. auto.
  - cbn [wfd] in Hwf. apply andb_prop in Hwf as [_ Hl]. cbn [shaped].
    apply andb_prop in Hb as [Hbk Hbv].
    rewrite forallb_forall in *. rewrite Forall_forall in H. intros [k x] Hx.
    specialize (Hl _ Hx). specialize (H _ Hx). cbn [fst snd] in *.
    apply andb_prop in Hl as [Hk Hv]. destruct H as [H1 H2].
    rewrite (H1 _ Hbk Hk), (H2 _ Hbv Hv). reflexivity.
  - rewrite wf_struct, erased_nth in Hwf. apply andb_prop in Hwf as [Hn Hf].
    apply Nat.eqb_eq in Hn. subst n. rewrite shaped_struct.
    destruct (nth_error (p_classes p) m) as [k|] eqn:Ek; [|discriminate Hf].
    cbn [option_map] in Hf.
    assert (Hk := Hbl k (nth_error_In _ _ Ek)). clear Ek.
    revert Hf Hk. generalize (k_fields k).
    induction H as [|f fs Hx _ IH]; intros [|g gs] Hf Hk; cbn [map wf_fields shaped_fields] in *;
      try discriminate; [reflexivity|].
    apply andb_prop in Hf as [Hf1 Hf2].
    rewrite (IH gs Hf2) by (intros; apply Hk; right; assumption).
    destruct f as [x|]; [|reflexivity].
    rewrite (Hx (g_ty g)); [reflexivity|apply Hk; left; reflexivity|assumption].
Qed.

(** From the simulation and the absence of ValueError to the result. *)
Lemma read_back {X} (P : proto X) p x0 n buf v rest :
  prog_ok p ->
  deserialize P x0 (erased p) n buf = Ok (v, rest) ->
  fst (gread_struct p P DFUEL (S (length buf)) n (mkst x0 buf [] 0)) <> Raise EValueError ->
  gdeserialize p P x0 n buf = Ok (lift p (GStruct n) v, rest).
Proof.
  intros Hok Hd Hne. unfold gdeserialize, run. unfold deserialize in Hd.
  destruct (gread_struct_sim p P Hok DFUEL (S (length buf)) n (mkst x0 buf [] 0))
    as [[Hs Hr]|[_ H]]; [|contradiction].
  destruct (gread_struct p P DFUEL (S (length buf)) n _) as [og sg].
  destruct (read_struct P (erased p) DFUEL (S (length buf)) n _) as [[w|e|] s1]; try discriminate Hd.
  cbn [fst snd] in *. subst sg. injection Hd as -> <-.
  destruct og as [x|e'|]; try contradiction. destruct Hr as [-> _]. reflexivity.
Qed.


(** Reading back what was written raises no ValueError. *)
Section NoValueError.
Variable p : gprog.
Hypothesis Hok : prog_ok p.
Hypothesis Hschema : schema_ok (erased p).

Lemma gread_ty_struct {X} (P : proto X) rs F n s : gread_ty p P [] rs F (GStruct n) s = rs n s.
Proof. reflexivity. Qed.

Ltac finish E := rewrite gread_ty_struct in E; cbn [ety] in E; rewrite E; discriminate.

Lemma binary_no_valueerror cf SL CL n v tail : b_limits cf SL CL ->
  wf (erased p) SL CL (TStruct n) v = true -> (sdepth v <= 64)%nat ->
  enums_ok p (GStruct n) v = true ->
  let bs := sb_value (erased p) (TStruct n) v ++ tail in
  fst (gread_struct p (binary cf) DFUEL (S (length bs)) n (mkst tt bs [] 0))
  <> Raise EValueError.
Proof.
  intros Hl Hwf Hd Hen bs. subst bs. set (L := binary_laws cf SL CL Hl).
  pose proof (enc_binary_spec cf SL CL Hl (erased p) v (TStruct n)) as Ee. rewrite <- Ee.
  assert (HF : (length (enc L (erased p) tt (TStruct n) v)
                <= S (length (enc L (erased p) tt (TStruct n) v ++ tail)))%nat)
    by (rewrite app_length; lia).
  fold L. revert HF.
  generalize (S (length (enc L (erased p) tt (TStruct n) v ++ tail))) as F. intros F HF.
  assert (H64 : (64 <= DFUEL)%nat) by (unfold DFUEL; lia).
  revert H64. generalize DFUEL. intros DF H64.
  destruct (gread_enc L p Hok Hschema F v 0 (GStruct n) tt DF []
              ltac:(lia) ltac:(intros ? []) eq_refl Logic.I Hwf
              ltac:(lia) ltac:(lia) HF Hen tail Logic.I tt _ [] eq_refl)
    as (x' & i' & E & _).
  finish E.
Qed.

Lemma compact_no_valueerror cf SL CL n v tail : c_limits cf SL CL ->
  wf (erased p) SL CL (TStruct n) v = true -> (sdepth v <= 64)%nat ->
  enums_ok p (GStruct n) v = true ->
  let bs := sc_value (erased p) (TStruct n) v ++ tail in
  fst (gread_struct p (compact cf) DFUEL (S (length bs)) n (mkst c_init bs [] 0))
  <> Raise EValueError.
Proof.
  intros Hl Hwf Hd Hen bs. subst bs. set (L := compact_laws cf SL CL Hl).
  pose proof (enc_compact_spec cf SL CL Hl (erased p) v (TStruct n) (c_top c_init) Logic.I) as Ee.
  rewrite <- Ee. fold L.
  assert (HF : (length (enc L (erased p) (c_top c_init) (TStruct n) v)
                <= S (length (enc L (erased p) (c_top c_init) (TStruct n) v ++ tail)))%nat)
    by (rewrite app_length; lia).
  revert HF.
  generalize (S (length (enc L (erased p) (c_top c_init) (TStruct n) v ++ tail))) as F.
  intros F HF.
  assert (Hx : c_ready c_init) by (repeat split).
  assert (H64 : (64 <= DFUEL)%nat) by (unfold DFUEL; lia).
  revert H64. generalize DFUEL. intros DF H64.
  destruct (gread_enc L p Hok Hschema F v 0 (GStruct n) (c_top c_init) DF []
              ltac:(lia) ltac:(intros ? []) eq_refl Logic.I Hwf
              ltac:(lia) ltac:(lia) HF Hen tail Logic.I c_init _ []
              (ready_rrep c_init _ Hx))
    as (x' & i' & E & _).
  finish E.
Qed.

Lemma json_no_valueerror limit SL CL n v tail : j_limits limit SL CL ->
  wfd finite (erased p) SL CL (TStruct n) v = true -> (sdepth v <= 64)%nat ->
  enums_ok p (GStruct n) v = true ->
  let bs := sj_value (erased p) false (TStruct n) v ++ tail in
  fst (gread_struct p (json limit) DFUEL (S (length bs)) n (mkst j_init bs [] 0))
  <> Raise EValueError.
Proof.
  intros Hl Hwf Hd Hen bs. subst bs. set (L := json_laws limit SL CL Hl).
  pose proof (enc_json_spec limit SL CL Hl (erased p) v [CBase] (TStruct n) Hwf) as Ee.
  cbn [sep top esc j_nxt adv app] in Ee. rewrite <- Ee. fold L.
  assert (HF : (length (enc L (erased p) [CBase] (TStruct n) v)
                <= S (length (enc L (erased p) [CBase] (TStruct n) v ++ tail)))%nat)
    by (rewrite app_length; lia).
  revert HF.
  generalize (S (length (enc L (erased p) [CBase] (TStruct n) v ++ tail))) as F.
  intros F HF.
  assert (H64 : (64 <= DFUEL)%nat) by (unfold DFUEL; lia).
  revert H64. generalize DFUEL. intros DF H64.
  destruct (gread_enc L p Hok Hschema F v 0 (GStruct n) [CBase] DF []
              ltac:(lia) ltac:(intros ? []) eq_refl Logic.I Hwf
              ltac:(lia) ltac:(lia) HF Hen tail Logic.I j_init _ []
              (conj eq_refl eq_refl))
    as (x' & i' & E & _).
  finish E.
Qed.
End NoValueError.
