(** The encodings of the law instances are the published wire formats. *)
From Coq Require Import ZArith List Bool Lia.
From Coq Require Import Init.Byte.
From Verif Require Import Base Bytes BytesFacts Utf8 Proto Spec Laws RoundTrip
  Binary BinaryLaws SpecBinary Compact CompactFacts CompactLaws SpecCompact.
Import ListNotations.
Open Scope Z_scope.

(** * Binary *)

Lemma be2 z : be_bytes 2 z = int16 z.
Proof. reflexivity. Qed.

Lemma be4 z : be_bytes 4 z = int32 z.
Proof.
  unfold be_bytes, int32. cbn [le_bytes rev app].
  rewrite !Z.div_div by lia. reflexivity.
Qed.

Lemma be8 z : be_bytes 8 z = int64 z.
Proof.
  unfold be_bytes, int64, int32. cbn [le_bytes rev app].
  rewrite !Z.div_div by lia. reflexivity.
Qed.

Lemma sb_type_code t : code t = sb_type t.
Proof. destruct t; reflexivity. Qed.

Section B.
Variable cf : bconf.
Variables SL CL : Z.
Hypothesis Hlim : b_limits cf SL CL.
Variable env : schema.

Lemma enc_binary_spec v : forall t,
  enc (binary_laws cf SL CL Hlim) env tt t v = sb_value env t v.
Proof.
  induction v using value_rect'; intros t.
  1-6: destruct t; cbn [enc e_base binary_laws be_base sb_value];
    unfold sb_string, sb_binary; rewrite ?be2, ?be4, ?be8; try reflexivity.
  - destruct b; reflexivity.
  - destruct (utf8_encode s); rewrite ?be4; reflexivity.
  - destruct t; try reflexivity.
    rewrite enc_list. cbn [sb_value]. cbn [e_lbeg binary_laws].
    rewrite be4, sb_type_code, <- app_assoc. do 2 f_equal.
    cbn [inL binary_laws].
    induction H as [|x l Hx _ IH]; [reflexivity|].
    cbn [enc_elems map concat]. rewrite Hx. f_equal. exact IH.
  - destruct t; try reflexivity.
    rewrite enc_set. cbn [sb_value]. cbn [e_lbeg binary_laws].
    rewrite be4, sb_type_code, <- app_assoc. do 2 f_equal.
    cbn [inL binary_laws].
    induction H as [|x l Hx _ IH]; [reflexivity|].
    cbn [enc_elems map concat]. rewrite Hx. f_equal. exact IH.
  - destruct t; try reflexivity.
    rewrite enc_map. cbn [sb_value]. cbn [e_mbeg binary_laws].
    rewrite be4, !sb_type_code, <- !app_assoc. do 3 f_equal.
    cbn [inM binary_laws].
    induction H as [|[k x] l [Hk Hx] _ IH]; [reflexivity|].
    cbn [enc_items map concat fst snd] in *. rewrite Hk, Hx, <- app_assoc.
    do 2 f_equal. exact IH.
  - destruct t; try reflexivity.
    cbn [sb_value]. destruct (nth_error env n) as [ds|] eqn:E.
    2:{ cbn [enc]. rewrite E. reflexivity. }
    rewrite (enc_struct _ _ _ _ _ _ _ E). cbn [e_sbeg binary_laws inS app].
    clear E. revert ds. induction H as [|f fs Hf _ IH]; intros ds.
    + destruct ds; reflexivity.
    + destruct ds as [|d ds].
      { destruct f; reflexivity. }
      destruct f as [x|]; cbn [enc_fields].
      * cbn [e_fbeg e_fend aft inF binary_laws] in *. rewrite Hf, be2, sb_type_code.
        rewrite <- !app_assoc. do 3 f_equal. apply IH.
      * apply IH.
Qed.
End B.

(** * Compact *)

Lemma le8 d : le_bytes 8 d = sc_double d.
Proof.
  unfold sc_double. cbn [le_bytes]. rewrite !Z.div_div by lia. reflexivity.
Qed.

Section C.
Variable cf : cconf.
Variables SL CL : Z.
Hypothesis Hlim : c_limits cf SL CL.
Variable env : schema.

Definition not_folded (c : cpos) : Prop :=
  match cp_kind c with KB _ => False | _ => True end.

Lemma enc_compact_spec v : forall t c, not_folded c ->
  enc (compact_laws cf SL CL Hlim) env c t v = sc_value env t v.
Proof.
  induction v using value_rect'; intros t c Hc.
  1-6: destruct t; cbn [enc e_base compact_laws ce_base sc_value];
    unfold sc_string, sc_binary; try reflexivity.
  - unfold not_folded in Hc. destruct (cp_kind c), b; try reflexivity; contradiction.
  - apply le8.
  - destruct t; try reflexivity.
    rewrite enc_list. cbn [sc_value]. cbn [e_lbeg compact_laws].
    rewrite ctc_code. f_equal. cbn [inL compact_laws].
    induction H as [|x l Hx _ IH]; [reflexivity|].
    cbn [enc_elems map concat nxt compact_laws]. rewrite Hx by exact I. f_equal. exact IH.
  - destruct t; try reflexivity.
    rewrite enc_set. cbn [sc_value]. cbn [e_lbeg compact_laws].
    rewrite ctc_code. f_equal. cbn [inL compact_laws].
    induction H as [|x l Hx _ IH]; [reflexivity|].
    cbn [enc_elems map concat nxt compact_laws]. rewrite Hx by exact I. f_equal. exact IH.
  - destruct t; try reflexivity.
    rewrite enc_map. cbn [sc_value]. cbn [e_mbeg compact_laws].
    rewrite !ctc_code. f_equal. cbn [inM compact_laws].
    induction H as [|[k x] l [Hk Hx] _ IH]; [reflexivity|].
    cbn [enc_items map concat fst snd nxt compact_laws] in *.
    rewrite Hk, Hx, <- app_assoc by exact I.
    do 2 f_equal. exact IH.
  - destruct t; try reflexivity.
    cbn [sc_value]. destruct (nth_error env n) as [ds|] eqn:E.
    2:{ cbn [enc]. rewrite E. reflexivity. }
    rewrite (enc_struct _ _ _ _ _ _ _ E). cbn [e_sbeg compact_laws inS app].
    clear E.
    assert (G : forall f0 ds prev, cp_last f0 = prev ->
      enc_fields (compact_laws cf SL CL Hlim) env f0 fs ds =
      (fix go prev fs ds :=
             match fs, ds with
             | f :: fs', d :: ds' =>
                 match f with
                 | Some x =>
                     match f_ty d, x with
                     | TBool, VBool b => sc_field prev (f_id d) (if b then 1 else 2)
                     | t', _ => sc_field prev (f_id d) (sc_type t')
                                ++ sc_value env t' x
                     end ++ go (f_id d) fs' ds'
                 | None => go prev fs' ds'
                 end
             | _, _ => [x00]
             end) prev fs ds).
    { clear ds. induction H as [|f fs Hf _ IH]; intros f0 ds prev Hp.
      - destruct ds; reflexivity.
      - destruct ds as [|d ds].
        { destruct f; reflexivity. }
        destruct f as [x|]; cbn [enc_fields].
        + cbn [e_fbeg e_fend aft inF compact_laws] in *. unfold ce_fbeg.
          rewrite Hp, ctc_code.
          assert (D : (exists b, f_ty d = TBool /\ x = VBool b)
                      \/ fold_bool (f_ty d) x = None).
          { destruct (f_ty d), x; cbn [fold_bool]; eauto. }
          destruct D as [(b & Et & ->)|D].
          * rewrite Et. cbn [fold_bool enc e_base compact_laws ce_base c_inF cp_kind app].
            destruct b; f_equal; apply IH; reflexivity.
          * rewrite D. rewrite Hf by exact I. cbn [app].
            rewrite (IH (c_aft f0 (f_id d)) ds (f_id d) eq_refl).
            destruct (f_ty d), x; try discriminate D; rewrite <- app_assoc; reflexivity.
        + apply IH. exact Hp. }
    apply G. reflexivity.
Qed.
End C.
