(** Encodings are self-delimiting: the bytes determine the value.  The proof
    reads them back with a schema without default values, where an unset
    attribute comes back unset. *)
From Coq Require Import ZArith List Bool Lia ZifyBool ZifyNat.
From Coq Require Import Init.Byte.
From Verif Require Import Base Bytes Utf8 Proto Spec Laws RoundTrip StructFacts Binary
  BinaryLaws SpecBinary Compact CompactLaws SpecCompact InstFacts SafeInst.
Import ListNotations.
Open Scope Z_scope.

Definition strip_field (d : fielddef) : fielddef :=
  mkfield (f_id d) (f_ty d) (f_req d) None.
Definition strip (env : schema) : schema := map (map strip_field) env.

Lemma strip_nth env n : nth_error (strip env) n = option_map (map strip_field) (nth_error env n).
Proof. unfold strip. apply nth_error_map. Qed.

Lemma strip_ok env : schema_ok env -> schema_ok (strip env).
Proof.
  intros H n ds E. rewrite strip_nth in E.
  destruct (nth_error env n) as [ds0|] eqn:E0; [|discriminate].
  cbn [option_map] in E. assert (ds = map strip_field ds0) by congruence. subst ds.
  destruct (H n ds0 E0) as [H1 H2]. split.
  - rewrite map_map. exact H1.
  - intros d Hd. apply in_map_iff in Hd as (d0 & <- & Hd). exact (H2 d0 Hd).
Qed.

Lemma strip_closed_ty env t : closed_ty (strip env) t = closed_ty env t.
Proof.
  induction t; cbn [closed_ty]; try reflexivity; try assumption.
  - rewrite IHt1, IHt2. reflexivity.
  - unfold strip. rewrite map_length. reflexivity.
Qed.

Lemma strip_closed env : schema_closed env = true -> schema_closed (strip env) = true.
Proof.
  unfold schema_closed. intros H. apply forallb_forall. intros ds Hds.
  unfold strip in Hds. apply in_map_iff in Hds as (ds0 & <- & Hds).
  apply forallb_forall. intros d Hd. apply in_map_iff in Hd as (d0 & <- & Hd).
  rewrite strip_closed_ty. cbn [strip_field f_ty].
  rewrite forallb_forall in H. specialize (H _ Hds). rewrite forallb_forall in H. auto.
Qed.

Lemma strip_wf env SL CL v : forall t, wf (strip env) SL CL t v = wf env SL CL t v.
Proof.
  induction v using value_rect'; intros t; destruct t; try reflexivity; cbn [wfd].
  - f_equal. induction H as [|x l Hx _ IH]; [reflexivity|].
    cbn [forallb]. rewrite Hx, IH. reflexivity.
  - f_equal. induction H as [|x l Hx _ IH]; [reflexivity|].
    cbn [forallb]. rewrite Hx, IH. reflexivity.
  - f_equal. induction H as [|[k x] l [Hk Hx] _ IH]; [reflexivity|].
    cbn [forallb fst snd] in *. rewrite Hk, Hx, IH. reflexivity.
  - f_equal. rewrite strip_nth. destruct (nth_error env n0) as [ds|]; [|reflexivity].
    cbn [option_map]. revert ds.
    induction H as [|f fs Hf _ IH]; intros [|d ds]; try reflexivity.
    cbn [map]. rewrite IH. destruct f as [x|]; [|reflexivity].
    cbn [strip_field f_ty]. rewrite Hf. reflexivity.
Qed.

Lemma strip_sb env v : forall t, sb_value (strip env) t v = sb_value env t v.
Proof.
  induction v using value_rect'; intros t; destruct t; try reflexivity; cbn [sb_value].
  - do 2 f_equal. f_equal. induction H as [|x l Hx _ IH]; [reflexivity|].
    cbn [map]. rewrite Hx, IH. reflexivity.
  - do 2 f_equal. f_equal. induction H as [|x l Hx _ IH]; [reflexivity|].
    cbn [map]. rewrite Hx, IH. reflexivity.
  - do 3 f_equal. f_equal. induction H as [|[k x] l [Hk Hx] _ IH]; [reflexivity|].
    cbn [map fst snd] in *. rewrite Hk, Hx, IH. reflexivity.
  - rewrite strip_nth. destruct (nth_error env n) as [ds|]; [|reflexivity].
    cbn [option_map]. revert ds.
    induction H as [|f fs Hf _ IH]; intros [|d ds]; try reflexivity.
    cbn [map]. rewrite IH. destruct f as [x|]; [|reflexivity].
    cbn [strip_field f_ty f_id]. rewrite Hf. reflexivity.
Qed.

Lemma strip_sc env v : forall t, sc_value (strip env) t v = sc_value env t v.
Proof.
  induction v using value_rect'; intros t; destruct t; try reflexivity; cbn [sc_value].
  - do 2 f_equal. induction H as [|x l Hx _ IH]; [reflexivity|].
    cbn [map]. rewrite Hx, IH. reflexivity.
  - do 2 f_equal. induction H as [|x l Hx _ IH]; [reflexivity|].
    cbn [map]. rewrite Hx, IH. reflexivity.
  - do 2 f_equal. induction H as [|[k x] l [Hk Hx] _ IH]; [reflexivity|].
    cbn [map fst snd] in *. rewrite Hk, Hx, IH. reflexivity.
  - rewrite strip_nth. destruct (nth_error env n) as [ds|]; [|reflexivity].
    cbn [option_map]. match goal with |- ?g 0 ?a ?b = ?h 0 ?c ?d => generalize 0 as z; revert ds end.
    induction H as [|f fs Hf _ IH]; intros [|d ds] z; try reflexivity.
    cbn [map]. destruct f as [x|]; [|apply IH].
    f_equal; [|apply IH]. cbn [strip_field f_ty f_id].
    destruct (f_ty d); rewrite Hf; reflexivity.
Qed.

Lemma strip_no_missing env v : forall t, no_missing_default (strip env) t v = true.
Proof.
  induction v using value_rect'; intros t; destruct t; try reflexivity;
    cbn [no_missing_default].
  - induction H as [|x l Hx _ IH]; [reflexivity|].
    cbn [forallb]. rewrite Hx, IH. reflexivity.
  - induction H as [|[k x] l [Hk Hx] _ IH]; [reflexivity|].
    cbn [forallb fst snd] in *. rewrite Hx, IH. reflexivity.
  - rewrite strip_nth. destruct (nth_error env n) as [ds|]; [|reflexivity].
    cbn [option_map]. revert ds.
    induction H as [|f fs Hf _ IH]; intros [|d ds]; try reflexivity.
    cbn [map]. rewrite IH. destruct f as [x|]; [|reflexivity].
    cbn [strip_field f_ty]. rewrite Hf. reflexivity.
Qed.

Section Delim.
Variables (env : schema) (SL CL : Z) (n : nat).
Hypotheses (Hok : schema_ok env) (Hcl : schema_closed env = true)
  (HS : SL <= 2147483647) (HC : CL <= 2147483647).

Lemma binary_decode_strip v tail : wf env SL CL (TStruct n) v = true ->
  (sdepth v <= 64)%nat ->
  deserialize (binary bdefault) tt (strip env) n (sb_value env (TStruct n) v ++ tail)
  = Ok (v, tail).
Proof.
  intros Hwf Hd.
  destruct (binary_round_trip bdefault bdefault SL CL (strip env) n v tail)
    as (bs & E1 & E2); try assumption.
  - apply strip_ok, Hok.
  - apply strip_closed, Hcl.
  - apply bdefault_limits; assumption.
  - rewrite strip_wf. exact Hwf.
  - rewrite (binary_serialize bdefault SL CL) in E1;
      try assumption; [|apply strip_ok, Hok|rewrite strip_wf; exact Hwf].
    rewrite strip_sb in E1.
    assert (bs = sb_value env (TStruct n) v) by congruence. subst bs.
    rewrite E2. do 2 f_equal. eapply with_defaults_id.
    + rewrite strip_wf. exact Hwf.
    + apply strip_no_missing.
Qed.

Lemma compact_decode_strip v tail : wf env SL CL (TStruct n) v = true ->
  (sdepth v <= 64)%nat ->
  deserialize (compact cdefault) c_init (strip env) n (sc_value env (TStruct n) v ++ tail)
  = Ok (v, tail).
Proof.
  intros Hwf Hd.
  destruct (compact_round_trip cdefault cdefault SL CL (strip env) n v tail)
    as (bs & E1 & E2); try assumption.
  - apply strip_ok, Hok.
  - apply strip_closed, Hcl.
  - apply cdefault_limits; assumption.
  - rewrite strip_wf. exact Hwf.
  - rewrite (compact_serialize cdefault SL CL) in E1;
      try assumption; [|apply strip_ok, Hok|rewrite strip_wf; exact Hwf].
    rewrite strip_sc in E1.
    assert (bs = sc_value env (TStruct n) v) by congruence. subst bs.
    rewrite E2. do 2 f_equal. eapply with_defaults_id.
    + rewrite strip_wf. exact Hwf.
    + apply strip_no_missing.
Qed.

Lemma binary_ser_inv cf v bs : wf env SL CL (TStruct n) v = true ->
  serialize (binary cf) tt env n v = Ok bs ->
  (sdepth v <= 64)%nat /\ bs = sb_value env (TStruct n) v.
Proof.
  intros Hwf E. destruct (le_lt_dec (sdepth v) 64) as [Hd|Hd].
  - rewrite (binary_serialize cf SL CL) in E by assumption. split; [assumption|congruence].
  - rewrite (serialize_deep_b cf SL CL) in E by assumption. discriminate.
Qed.

Lemma compact_ser_inv cf v bs : wf env SL CL (TStruct n) v = true ->
  serialize (compact cf) c_init env n v = Ok bs ->
  (sdepth v <= 64)%nat /\ bs = sc_value env (TStruct n) v.
Proof.
  intros Hwf E. destruct (le_lt_dec (sdepth v) 64) as [Hd|Hd].
  - rewrite (compact_serialize cf SL CL) in E by assumption. split; [assumption|congruence].
  - rewrite (serialize_deep_c cf SL CL) in E by assumption. discriminate.
Qed.

Theorem binary_delim cf v1 v2 b1 b2 t1 t2 :
  wf env SL CL (TStruct n) v1 = true -> wf env SL CL (TStruct n) v2 = true ->
  serialize (binary cf) tt env n v1 = Ok b1 -> serialize (binary cf) tt env n v2 = Ok b2 ->
  b1 ++ t1 = b2 ++ t2 -> v1 = v2 /\ t1 = t2.
Proof.
  intros W1 W2 E1 E2 E.
  destruct (binary_ser_inv cf v1 b1 W1 E1) as [D1 ->].
  destruct (binary_ser_inv cf v2 b2 W2 E2) as [D2 ->].
  pose proof (binary_decode_strip v1 t1 W1 D1) as R1.
  pose proof (binary_decode_strip v2 t2 W2 D2) as R2.
  rewrite E in R1. rewrite R1 in R2. split; congruence.
Qed.

Theorem compact_delim cf v1 v2 b1 b2 t1 t2 :
  wf env SL CL (TStruct n) v1 = true -> wf env SL CL (TStruct n) v2 = true ->
  serialize (compact cf) c_init env n v1 = Ok b1 ->
  serialize (compact cf) c_init env n v2 = Ok b2 ->
  b1 ++ t1 = b2 ++ t2 -> v1 = v2 /\ t1 = t2.
Proof.
  intros W1 W2 E1 E2 E.
  destruct (compact_ser_inv cf v1 b1 W1 E1) as [D1 ->].
  destruct (compact_ser_inv cf v2 b2 W2 E2) as [D2 ->].
  pose proof (compact_decode_strip v1 t1 W1 D1) as R1.
  pose proof (compact_decode_strip v2 t2 W2 D2) as R2.
  rewrite E in R1. rewrite R1 in R2. split; congruence.
Qed.
End Delim.

(** * Truncated encodings *)

From Verif Require Import FrameFacts TermFacts SafetyFacts.

Section Trunc.
Variables (env : schema) (SL CL : Z) (n : nat).
Hypotheses (Hok : schema_ok env) (Hcl : schema_closed env = true).

Theorem binary_truncated cfW cfR v p q : b_limits cfR SL CL ->
  wf env SL CL (TStruct n) v = true ->
  serialize (binary cfW) tt env n v = Ok (p ++ q) -> q <> [] ->
  exists e, deserialize (binary cfR) tt env n p = Raise e.
Proof.
  intros Hl Hwf E Hq. pose proof Hl as (H1 & H2 & _).
  destruct (binary_ser_inv env SL CL n Hok H1 H2 cfW v _ Hwf E) as [Hd _].
  destruct (binary_round_trip cfW cfR SL CL env n v [] Hok Hcl Hl Hwf Hd)
    as (bs & E1 & E2).
  assert (bs = p ++ q) by congruence. subst bs. rewrite app_nil_r in E2.
  exact (deserialize_prefix (binary_term cfR) (fun _ _ H => H) (binary_stable cfR) env n
    tt p q _ eq_refl E2 Hq).
Qed.

Theorem compact_truncated cfW cfR v p q : c_limits cfR SL CL ->
  wf env SL CL (TStruct n) v = true ->
  serialize (compact cfW) c_init env n v = Ok (p ++ q) -> q <> [] ->
  exists e, deserialize (compact cfR) c_init env n p = Raise e.
Proof.
  intros Hl Hwf E Hq. pose proof Hl as (H1 & H2 & _).
  destruct (compact_ser_inv env SL CL n Hok H1 H2 cfW v _ Hwf E) as [Hd _].
  destruct (compact_round_trip cfW cfR SL CL env n v [] Hok Hcl Hl Hwf Hd)
    as (bs & E1 & E2).
  assert (bs = p ++ q) by congruence. subst bs. rewrite app_nil_r in E2.
  exact (deserialize_prefix (compact_term cfR) (fun _ _ H => H) (compact_stable cfR) env n
    c_init p q _ eq_refl E2 Hq).
Qed.
End Trunc.
