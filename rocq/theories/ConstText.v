(** The texts the generator emits for leaves, read back as Python tokens. *)
From Coq Require Import ZArith List Bool Lia.
From Coq Require Import Init.Byte.
From Coq Require Import ZifyBool ZifyNat ZifyN.
From Verif Require Import Base Bytes BytesFacts Utf8 Utf8Facts JsonText JsonTextFacts Const.
Import ListNotations.
Open Scope Z_scope.

(** * Strings *)

Definition escape_cp (c : Z) : list Z :=
  if c =? 10 then [92; 110] else if c =? 13 then [92; 114]
  else if c =? 9 then [92; 116] else if c =? 34 then [92; 34]
  else if c =? 92 then [92; 92] else [c].

Lemma utf8_encode_app a b x y : utf8_encode a = Some x -> utf8_encode b = Some y ->
  utf8_encode (a ++ b) = Some (x ++ y).
Proof.
  revert x. induction a as [|c a IH]; intros x Ha Hb; cbn [utf8_encode app] in *.
  - injection Ha as <-. assumption.
  - destruct (utf8_char c) as [bc|]; [|discriminate].
    destruct (utf8_encode a) as [ba|]; [|discriminate]. injection Ha as <-.
    rewrite (IH ba eq_refl Hb), app_assoc. reflexivity.
Qed.

Lemma escape_byte_high b : 128 <= b2z b -> escape_byte b = [b].
Proof. intros H. destruct b; reflexivity || (exfalso; apply H; reflexivity). Qed.

Lemma escape_char c bs : utf8_char c = Some bs ->
  utf8_encode (escape_cp c) = Some (escape_string bs).
Proof.
  intros H. pose proof H as H'. unfold utf8_char in H.
  destruct (negb (scalar c)) eqn:Es; [discriminate|].
  assert (R : 0 <= c <= 1114111) by (unfold scalar in Es; lia).
  destruct (c <? 128) eqn:E1.
  - clear H. assert (Hb : bs = [z2b c]).
    { unfold utf8_char in H'. rewrite Es, E1 in H'. congruence. }
    assert (Hc : exists b, c = b2z b) by (exists (z2b c); rewrite b2z_z2b; symmetry; apply Z.mod_small; lia).
    destruct Hc as [b ->]. rewrite z2b_b2z in Hb. subst bs.
    clear H' Es R. destruct b; try (exfalso; revert E1; vm_compute; discriminate);
      vm_compute; reflexivity.
  - assert (Ee : escape_cp c = [c]).
    { unfold escape_cp. destruct (c =? 10) eqn:?; [lia|]. destruct (c =? 13) eqn:?; [lia|].
      destruct (c =? 9) eqn:?; [lia|]. destruct (c =? 34) eqn:?; [lia|].
      destruct (c =? 92) eqn:?; [lia|]. reflexivity. }
    rewrite Ee. cbn [utf8_encode]. rewrite H', app_nil_r. f_equal.
    assert (A : forall l, Forall (fun b => 128 <= b2z b) l -> escape_string l = l).
    { induction l as [|b l IH]; intros F; [reflexivity|].
      inversion F as [|? ? F1 F2]; subst. unfold escape_string in *. cbn [flat_map].
      rewrite IH, escape_byte_high by assumption. reflexivity. }
    symmetry. apply A.
    assert (D : forall z, 128 <= z < 256 -> 128 <= b2z (z2b z))
      by (intros z Hz; rewrite b2z_z2b, Z.mod_small; lia).
    pose proof (Z.mod_pos_bound c 64 ltac:(lia)).
    pose proof (Z.mod_pos_bound (c / 64) 64 ltac:(lia)).
    pose proof (Z.mod_pos_bound (c / 4096) 64 ltac:(lia)).
    destruct (c <? 2048) eqn:E2; [|destruct (c <? 65536) eqn:E3];
      apply some_inj in H; subst bs; repeat constructor; apply D;
      Z.div_mod_to_equations; lia.
Qed.

Lemma escape_encode s bs : utf8_encode s = Some bs ->
  utf8_encode (flat_map escape_cp s) = Some (escape_string bs).
Proof.
  revert bs. induction s as [|c s IH]; intros bs H; cbn [utf8_encode flat_map] in *.
  - injection H as <-. reflexivity.
  - destruct (utf8_char c) as [bc|] eqn:Ec; [|discriminate].
    destruct (utf8_encode s) as [br|]; [|discriminate]. injection H as <-.
    unfold escape_string. rewrite flat_map_app.
    apply utf8_encode_app; [apply escape_char; assumption|apply IH; reflexivity].
Qed.

Lemma unescape_cp s : forallb (fun c => negb (c =? 0)) s = true ->
  py_unescape (flat_map escape_cp s) = Some s.
Proof.
  induction s as [|c s IH]; intros H; [reflexivity|].
  cbn [forallb] in H. apply andb_prop in H as [H1 H2]. specialize (IH H2).
  cbn [flat_map]. unfold escape_cp at 1.
  destruct (c =? 10) eqn:E1; [apply Z.eqb_eq in E1; subst c; cbn; rewrite IH; reflexivity|].
  destruct (c =? 13) eqn:E2; [apply Z.eqb_eq in E2; subst c; cbn; rewrite IH; reflexivity|].
  destruct (c =? 9) eqn:E3; [apply Z.eqb_eq in E3; subst c; cbn; rewrite IH; reflexivity|].
  destruct (c =? 34) eqn:E4; [apply Z.eqb_eq in E4; subst c; cbn; rewrite IH; reflexivity|].
  destruct (c =? 92) eqn:E5; [apply Z.eqb_eq in E5; subst c; cbn; rewrite IH; reflexivity|].
  cbn [app py_unescape]. rewrite E5, E4, E1, E2.
  destruct (c =? 0) eqn:E6; [discriminate|]. cbn [orb].
  rewrite IH. reflexivity.
Qed.

Lemma no_nul_decode bs : forall s, utf8_decode bs = Some s -> no_nul bs = true ->
  forallb (fun c => negb (c =? 0)) s = true.
Proof.
  intros s H Hn. apply utf8_encode_decode in H.
  revert bs H Hn. induction s as [|c s IH]; intros bs H Hn; [reflexivity|].
  cbn [utf8_encode forallb] in *.
  destruct (utf8_char c) as [bc|] eqn:Ec; [|discriminate].
  destruct (utf8_encode s) as [br|]; [|discriminate]. injection H as <-.
  unfold no_nul in *. rewrite forallb_app in Hn. apply andb_prop in Hn as [Ha Hb].
  rewrite (IH br eq_refl Hb), andb_true_r.
  destruct (c =? 0) eqn:E; [|reflexivity]. apply Z.eqb_eq in E. subst c.
  vm_compute in Ec. injection Ec as <-. discriminate.
Qed.

Lemma no_nul_encode s : forall bs, utf8_encode s = Some bs ->
  forallb (fun c => negb (c =? 0)) s = true -> no_nul bs = true.
Proof.
  induction s as [|c s IH]; intros bs H Hn; cbn [utf8_encode forallb] in *.
  - injection H as <-. reflexivity.
  - destruct (utf8_char c) as [bc|] eqn:Ec; [|discriminate].
    destruct (utf8_encode s) as [br|]; [|discriminate]. injection H as <-.
    apply andb_prop in Hn as [H1 H2]. unfold no_nul in *. rewrite forallb_app.
    rewrite (IH br eq_refl H2), andb_true_r.
    apply forallb_forall. intros b Hb. destruct (Byte.eqb b x00) eqn:E; [|reflexivity].
    apply Byte.byte_dec_bl in E. subst b. exfalso.
    pose proof (utf8_decode_char c bc [] Ec) as D. cbn [utf8_decode] in D.
    rewrite app_nil_r in D.
    unfold utf8_char in Ec. destruct (negb (scalar c)) eqn:Es; [discriminate|].
    assert (R : 0 <= c <= 1114111) by (unfold scalar in Es; lia).
    assert (Z0 : forall z, 0 < z < 256 -> z2b z <> x00).
    { intros z Hz Hzz. pose proof (b2z_z2b z) as B. rewrite Hzz in B.
      rewrite Z.mod_small in B by lia. change (b2z x00) with 0 in B. lia. }
    pose proof (Z.mod_pos_bound c 64 ltac:(lia)).
    pose proof (Z.mod_pos_bound (c / 64) 64 ltac:(lia)).
    pose proof (Z.mod_pos_bound (c / 4096) 64 ltac:(lia)).
    destruct (c <? 128) eqn:E1; [|destruct (c <? 2048) eqn:E2; [|destruct (c <? 65536) eqn:E3]];
      apply some_inj in Ec; subst bc; cbn [In] in Hb;
      repeat match goal with H : _ \/ _ |- _ => destruct H as [H|H] | H : False |- _ => destruct H end;
      (eapply Z0; [|exact Hb]); Z.div_mod_to_equations; lia.
Qed.

(** A string literal holds the string. *)
Lemma str_literal_escape s l : no_nul s = true -> utf8_decode s = Some l ->
  str_literal (escape_string s) = Some l.
Proof.
  intros Hn Hd. unfold str_literal.
  pose proof (utf8_encode_decode _ _ Hd) as He.
  rewrite (utf8_decode_encode (flat_map escape_cp l)) by (apply escape_encode; exact He).
  apply unescape_cp. eapply no_nul_decode; eassumption.
Qed.

Lemma ascii_decode s : forallb (fun b => b2z b <? 128) s = true ->
  utf8_decode s = Some (map b2z s).
Proof.
  induction s as [|b s IH]; intros H; [reflexivity|].
  cbn [forallb] in H. apply andb_prop in H as [H1 H2].
  cbn [utf8_decode map]. rewrite H1, (IH H2). reflexivity.
Qed.

Lemma escape_ascii s : forallb (fun b => b2z b <? 128) s = true ->
  forallb (fun b => b2z b <? 128) (escape_string s) = true.
Proof.
  intros H. rewrite forallb_forall in *. intros b Hb. apply in_flat_map in Hb as (c & Hc & Hb).
  specialize (H c Hc). destruct c; cbn [escape_byte In] in Hb;
    repeat (destruct Hb as [<-|Hb]; [exact H || reflexivity|]); destruct Hb.
Qed.

Lemma forallb_map A B (f : B -> bool) (g : A -> B) l :
  forallb f (map g l) = forallb (fun x => f (g x)) l.
Proof. induction l as [|x l IH]; cbn; [reflexivity|]. rewrite IH. reflexivity. Qed.

Lemma bytes_literal_escape s : no_nul s = true ->
  forallb (fun b => b2z b <? 128) s = true -> bytes_literal (escape_string s) = Some s.
Proof.
  intros Hn Ha. unfold bytes_literal.
  rewrite (ascii_decode (escape_string s)) by (apply escape_ascii; exact Ha).
  rewrite forallb_map, (escape_ascii s Ha).
  pose proof (str_literal_escape s (map b2z s) Hn (ascii_decode s Ha)) as E.
  unfold str_literal in E.
  rewrite (ascii_decode (escape_string s)) in E by (apply escape_ascii; exact Ha).
  rewrite E. cbn [option_map]. f_equal. rewrite map_map. rewrite <- map_id.
  apply map_ext. intros b. apply z2b_b2z.
Qed.

(** What cannot be in a bytes literal. *)
Lemma decode_high s l : utf8_decode s = Some l ->
  forallb (fun b => b2z b <? 128) s = false -> forallb (fun c => c <? 128) l = false.
Proof.
  intros H Hs. apply utf8_encode_decode in H. revert s H Hs.
  induction l as [|c l IH]; intros s H Hs; cbn [utf8_encode forallb] in *.
  - injection H as <-. discriminate.
  - destruct (utf8_char c) as [bc|] eqn:Ec; [|discriminate].
    destruct (utf8_encode l) as [br|]; [|discriminate]. injection H as <-.
    rewrite forallb_app in Hs. destruct (c <? 128) eqn:E; [|reflexivity]. cbn [andb].
    apply (IH br eq_refl). unfold utf8_char in Ec.
    destruct (negb (scalar c)) eqn:Es; [discriminate|]. rewrite E in Ec. injection Ec as <-.
    cbn [forallb] in Hs. rewrite b2z_z2b, Z.mod_small, E in Hs by (unfold scalar in Es; lia).
    exact Hs.
Qed.

Lemma bytes_literal_high s : forallb (fun b => b2z b <? 128) s = false ->
  bytes_literal (escape_string s) = None.
Proof.
  intros H. unfold bytes_literal.
  destruct (utf8_decode (escape_string s)) as [l|] eqn:E; [|reflexivity].
  rewrite (decode_high _ _ E); [reflexivity|].
  rewrite <- not_true_iff_false in *. intros F. apply H. rewrite forallb_forall in *.
  intros b Hb. destruct (b2z b <? 128) eqn:Eb; [reflexivity|].
  rewrite <- Eb. apply F. apply in_flat_map. exists b. split; [exact Hb|].
  rewrite escape_byte_high by lia. left; reflexivity.
Qed.

(** The scanner of the IDL reads the same text. *)
Lemma lex_escape s r : lex_literal x22 (escape_string s ++ x22 :: r) = Some (s, r).
Proof.
  induction s as [|b s IH]; [reflexivity|].
  unfold escape_string in *. cbn [flat_map]. rewrite <- app_assoc.
  set (t := flat_map escape_byte s ++ x22 :: r) in *. clearbody t.
  destruct b; cbn [escape_byte app lex_literal Byte.eqb andb];
    match goal with |- context [lex_literal x22 t] => idtac end;
    rewrite IH; reflexivity.
Qed.

(** * Integers *)

Lemma nat_literal_digits n : 0 <= n -> nat_literal (digits n) = Some n.
Proof.
  intros Hn. destruct (digits_spec n Hn) as (V & D & N & L).
  unfold nat_literal. destruct (digits n) as [|c l] eqn:E; [congruence|].
  rewrite D, V. cbn [andb].
  destruct (c =? 48) eqn:Ec; [|reflexivity]. cbn [negb orb].
  apply Z.eqb_eq in Ec. subst c.
  destruct (Z.eq_dec n 0) as [->|Hnz].
  - change (digits 0) with [48] in E. injection E as <-. reflexivity.
  - specialize (L Hnz). exfalso.
    change (48 :: l) with ([48] ++ l) in V. rewrite digits_val_app in V.
    change (digits_val [48]) with 0 in V.
    cbn [forallb] in D. apply andb_prop in D as [_ D].
    pose proof (digits_val_range l D) as R. cbn [length] in L.
    replace (Z.of_nat (S (length l)) - 1) with (Z.of_nat (length l)) in L by lia. lia.
Qed.

Lemma int_literal_text z : int_literal (int_text z) = Some z.
Proof.
  unfold int_text. destruct (z <? 0) eqn:E.
  - unfold int_literal. rewrite nat_literal_digits by lia. cbn [option_map]. f_equal. lia.
  - destruct (digits_spec z ltac:(lia)) as (_ & D & N & _).
    transitivity (nat_literal (digits z)); [|apply nat_literal_digits; lia].
    unfold int_literal. destruct (digits z) as [|c l] eqn:El; [reflexivity|].
    cbn [forallb] in D. apply andb_prop in D as [D _]. unfold is_digit in D.
    destruct c as [|q|q]; try reflexivity.
    do 6 (destruct q as [q|q|]; try reflexivity; try lia).
Qed.

(** * Doubles *)

Lemma pad16_spec n : 0 <= n < 10 ^ 16 ->
  length (pad16 n) = 16%nat /\ forallb is_digit (pad16 n) = true /\ digits_val (pad16 n) = n.
Proof.
  intros Hn. destruct (digits_spec n ltac:(lia)) as (V & D & N & L).
  assert (Hl : (length (digits n) <= 16)%nat).
  { pose proof (digits_len_le n 15 ltac:(lia) Hn). lia. }
  unfold pad16. rewrite app_length, repeat_length, forallb_app, digits_val_app, digits_val_zeros, V, D.
  split; [lia|]. split; [|lia]. rewrite andb_true_r. apply forallb_forall. intros c Hc.
  apply repeat_spec in Hc. subst c. reflexivity.
Qed.

Lemma dec_literal_fixed k : 0 <= k ->
  dec_literal (digits (k / 10 ^ 16) ++ 46 :: pad16 (k mod 10 ^ 16)) = Some (k, -16).
Proof.
  intros Hk. pose proof (Z.mod_pos_bound k (10 ^ 16) ltac:(lia)) as Hm.
  pose proof (Z.div_pos k (10 ^ 16) Hk ltac:(lia)) as Hq.
  destruct (digits_spec _ Hq) as (V & D & N & _).
  destruct (pad16_spec _ Hm) as (Pl & Pd & Pv).
  unfold dec_literal. rewrite span_digits_app; [|exact D|reflexivity].
  replace (span_digits (pad16 (k mod 10 ^ 16))) with (pad16 (k mod 10 ^ 16), @nil Z).
  2:{ symmetry. rewrite <- (app_nil_r (pad16 _)) at 1. apply span_digits_app; [exact Pd|exact Logic.I]. }
  destruct (digits (k / 10 ^ 16)) as [|c l] eqn:E; [congruence|].
  cbn [app exp_part]. rewrite Pl.
  change (c :: l ++ pad16 (k mod 10 ^ 16)) with ((c :: l) ++ pad16 (k mod 10 ^ 16)).
  rewrite digits_val_app, V, Pv, Pl. f_equal. f_equal.
  - pose proof (Z.div_mod k (10 ^ 16) ltac:(lia)) as Ek.
    change (10 ^ Z.of_nat 16) with (10 ^ 16). lia.
Qed.

Lemma float_literal_fixed k : 0 <= k ->
  let t := digits (k / 10 ^ 16) ++ 46 :: pad16 (k mod 10 ^ 16) in
  float_literal t = Some (FVal (dbl_round k (10 ^ 16)))
  /\ float_literal (45 :: t) = Some (FVal (dbl_round k (10 ^ 16) + DBL_SIGN)).
Proof.
  intros Hk t. pose proof (dec_literal_fixed k Hk) as E. fold t in E.
  destruct (digits_spec (k / 10 ^ 16) (Z.div_pos k (10 ^ 16) Hk ltac:(lia))) as (_ & D & N & _).
  assert (exists c r, t = c :: r /\ is_digit c = true) as (c & r & Et & Hc).
  { subst t. destruct (digits (k / 10 ^ 16)) as [|c l]; [congruence|].
    exists c, (l ++ 46 :: pad16 (k mod 10 ^ 16)). split; [reflexivity|].
    cbn [forallb] in D. apply andb_prop in D as [D _]. exact D. }
  clearbody t. subst t. unfold is_digit in Hc.
  assert (A : (if list_eqb (c :: r) [105; 110; 102] || list_eqb (c :: r) [110; 97; 110] then Some FName
    else match dec_literal (c :: r) with
         | Some (n, e) => let (a, b) := scale 10 n e in Some (FVal (dbl_round a b))
         | None => None
         end) = Some (FVal (dbl_round k (10 ^ 16)))).
  { rewrite !list_eqb_head by lia. cbn [orb]. rewrite E.
    change (scale 10 k (-16)) with (k, 10 ^ 16). reflexivity. }
  unfold float_literal. rewrite A. split; [|reflexivity].
  destruct c as [|q|q]; try reflexivity; try lia.
  do 6 (destruct q as [q|q|]; try reflexivity; try lia).
Qed.

(** The number of units of [10^-16] the generator writes. *)
Definition units (a : Z) : Z :=
  let (m, q) := dbl_mant a in let (n, d) := scale 2 m q in rne (n * 10 ^ 16) d.

Lemma rne_nonneg n d : 0 <= n -> 0 < d -> 0 <= rne n d.
Proof.
  intros Hn Hd. unfold rne. pose proof (Z.div_pos n d Hn Hd).
  destruct (2 * (n mod d) <? d); [lia|]. destruct (d <? 2 * (n mod d)); [lia|].
  destruct (Z.even (n / d)); lia.
Qed.

Lemma units_nonneg a : 0 <= a < DBL_INF -> 0 <= units a.
Proof.
  intros Ha. unfold units.
  destruct (Z.eq_dec a 0) as [->|Hnz]; [vm_compute; discriminate|].
  destruct (dbl_mant_spec a ltac:(lia)) as [Hc _].
  destruct (dbl_mant a) as [m q]. cbn [fst snd] in Hc. destruct Hc as (Hm & _).
  pose proof (scale_num_pos 2 m q ltac:(lia) ltac:(lia)) as P1.
  pose proof (scale_pos 2 m q ltac:(lia)) as P2.
  destruct (scale 2 m q) as [n d]. cbn [fst snd] in *. apply rne_nonneg; lia.
Qed.

Lemma emit_double_finite a : 0 <= a < DBL_INF ->
  emit_double a = digits (units a / 10 ^ 16) ++ 46 :: pad16 (units a mod 10 ^ 16)
  /\ emit_double (a + DBL_SIGN)
     = 45 :: digits (units a / 10 ^ 16) ++ 46 :: pad16 (units a mod 10 ^ 16).
Proof.
  intros Ha. assert (Hs : a < DBL_SIGN) by (unfold DBL_INF, DBL_SIGN in *; lia).
  assert (Em : (a + DBL_SIGN) mod DBL_SIGN = a).
  { replace (a + DBL_SIGN) with (a + 1 * DBL_SIGN) by lia.
    rewrite Z.mod_add by discriminate. apply Z.mod_small. lia. }
  assert (T : forall b sg, b mod DBL_SIGN = a -> (if DBL_SIGN <=? b then [45] else []) = sg ->
    emit_double b = sg ++ digits (units a / 10 ^ 16) ++ 46 :: pad16 (units a mod 10 ^ 16)).
  { intros b sg Hb Hsg. unfold emit_double. rewrite Hb, Hsg.
    destruct (DBL_INF <? a) eqn:E1; [lia|]. destruct (a =? DBL_INF) eqn:E2; [lia|].
    unfold units. destruct (dbl_mant a) as [m q]. destruct (scale 2 m q) as [n d]. reflexivity. }
  split.
  - apply (T a []); [apply Z.mod_small; lia|]. destruct (DBL_SIGN <=? a) eqn:E; [lia|reflexivity].
  - apply (T _ [45]); [exact Em|]. destruct (DBL_SIGN <=? a + DBL_SIGN) eqn:E; [reflexivity|lia].
Qed.

(** 0.5, 1.0 *)
Definition DBL_HALF := 4602678819172646912.
Definition DBL_ONE := 4607182418800017408.

Lemma units_round_ge1 a : DBL_ONE <= a < DBL_INF -> dbl_round (units a) (10 ^ 16) = a.
Proof.
  intros Ha. unfold DBL_ONE in Ha.
  destruct (dbl_mant_spec a ltac:(lia)) as [Hc Hv]. unfold units.
  destruct (dbl_mant a) as [m q]. cbn [fst snd] in *.
  pose proof Hc as (Hm & Hq & Hcan).
  change (2 ^ 53) with 9007199254740992 in Hm. change (2 ^ 52) with 4503599627370496 in *.
  assert (Hq2 : -52 <= q) by lia. specialize (Hcan ltac:(lia)).
  pose proof (scale_num_pos 2 m q ltac:(lia) ltac:(lia)) as P1.
  pose proof (scale_pos 2 m q ltac:(lia)) as P2.
  assert (Hge : snd (scale 2 m q) <= fst (scale 2 m q)).
  { unfold scale. destruct (0 <=? q) eqn:Eq; cbn [fst snd].
    - assert (0 < 2 ^ q) by (apply Z.pow_pos_nonneg; lia). nia.
    - assert (2 ^ (- q) <= 2 ^ 52) by (apply Z.pow_le_mono_r; lia).
      change (2 ^ 52) with 4503599627370496 in *. lia. }
  assert (K : dbl_round (rne (fst (scale 2 m q) * 10 ^ 16) (snd (scale 2 m q))) (10 ^ 16)
              = (q + 1074) * 2 ^ 52 + m).
  { set (n := fst (scale 2 m q)) in *. set (d := snd (scale 2 m q)) in *.
    pose proof (rne_spec (n * 10 ^ 16) d P2) as S.
    apply (dbl_round_close m q _ _ Hc); [|lia|].
    - assert (0 < n * 10 ^ 16) by lia. destruct (Z.le_gt_cases (rne (n * 10 ^ 16) d) 0) as [L|L]; [|exact L].
      exfalso. assert (rne (n * 10 ^ 16) d * d <= 0) by (apply Z.mul_nonpos_nonneg; lia). lia.
    - fold n d. lia. }
  destruct (scale 2 m q) as [n d]. cbn [fst snd] in K. rewrite K.
  change (2 ^ 52) with 4503599627370496. exact Hv.
Qed.

Lemma units_round_half a : DBL_HALF <= a < DBL_ONE -> dbl_round (units a) (10 ^ 16) = a.
Proof.
  intros Ha. unfold DBL_HALF, DBL_ONE in Ha.
  destruct (dbl_mant_spec a ltac:(unfold DBL_INF; lia)) as [Hc Hv]. unfold units.
  destruct (dbl_mant a) as [m q]. cbn [fst snd] in *.
  pose proof Hc as (Hm & Hq & Hcan).
  change (2 ^ 53) with 9007199254740992 in Hm. change (2 ^ 52) with 4503599627370496 in *.
  specialize (Hcan ltac:(lia)). assert (q = -53) by lia. subst q.
  change (scale 2 m (-53)) with (m, 9007199254740992). cbn iota beta.
  pose proof (rne_spec (m * 10 ^ 16) 9007199254740992 ltac:(lia)) as S.
  set (k := rne (m * 10 ^ 16) 9007199254740992) in *. clearbody k.
  change (10 ^ 16) with 10000000000000000 in *.
  assert (Hk : 5000000000000000 <= k < 10000000000000000) by lia.
  unfold dbl_round. destruct (k =? 0) eqn:E0; [lia|].
  assert (Hb : bin_exp k 10000000000000000 = -1).
  { unfold bin_exp. change (Z.log2 10000000000000000) with 53.
    destruct (Z_lt_le_dec k 9007199254740992) as [L|L].
    - assert (El : Z.log2 k = 52) by (apply Z.log2_unique; [lia|]; change (2 ^ 52) with 4503599627370496; change (2 ^ Z.succ 52) with 9007199254740992; lia).
      rewrite El. change (scale 2 1 (52 - 53)) with (1, 2). cbn iota beta.
      destruct (1 * 10000000000000000 <=? k * 2) eqn:E; lia.
    - assert (El : Z.log2 k = 53) by (apply Z.log2_unique; [lia|]; change (2 ^ 53) with 9007199254740992; change (2 ^ Z.succ 53) with 18014398509481984; lia).
      rewrite El. change (scale 2 1 (53 - 53)) with (1, 1). cbn iota beta.
      destruct (1 * 10000000000000000 <=? k * 1) eqn:E; lia. }
  rewrite Hb. change (Z.max (-1 - 52) (-1074)) with (-53).
  change (scale 2 1 (- -53)) with (9007199254740992, 1). cbn iota beta.
  rewrite (rne_unique _ _ m) by lia. change (2 ^ 52) with 4503599627370496.
  unfold DBL_INF. lia.
Qed.

Lemma units_round a : a = 0 \/ DBL_HALF <= a < DBL_INF -> dbl_round (units a) (10 ^ 16) = a.
Proof.
  intros [->|Ha]; [reflexivity|].
  destruct (Z_lt_le_dec a DBL_ONE); [apply units_round_half|apply units_round_ge1]; lia.
Qed.

Lemma sign_split b : 0 <= b < 2 ^ 64 ->
  b = b mod DBL_SIGN \/ b = b mod DBL_SIGN + DBL_SIGN.
Proof.
  intros Hb. change (2 ^ 64) with 18446744073709551616 in Hb. unfold DBL_SIGN.
  Z.div_mod_to_equations. lia.
Qed.

(** The text of a double, read back. *)
Lemma float_literal_emit b : 0 <= b < 2 ^ 64 -> finite b = true ->
  float_literal (emit_double b)
  = Some (FVal (dbl_round (units (b mod DBL_SIGN)) (10 ^ 16) + (b - b mod DBL_SIGN))).
Proof.
  intros Hb Hf. unfold finite in Hf.
  pose proof (Z.mod_pos_bound b DBL_SIGN eq_refl) as Hm.
  pose proof (sign_split b Hb) as Hs. set (a := b mod DBL_SIGN) in *. clearbody a.
  assert (Ha : 0 <= a < DBL_INF) by lia.
  destruct (emit_double_finite a Ha) as [E1 E2].
  destruct (float_literal_fixed (units a) (units_nonneg a Ha)) as [F1 F2].
  destruct Hs as [->| ->].
  - rewrite E1, F1. f_equal. f_equal. lia.
  - rewrite E2, F2. f_equal. f_equal. lia.
Qed.

(** Less than half a unit. *)
Lemma units_small a : 0 <= a < DBL_INF ->
  (let (m, q) := dbl_mant a in let (n, d) := scale 2 m q in 2 * (n * 10 ^ 16) < d) ->
  units a = 0.
Proof.
  intros Ha. unfold units.
  destruct (Z.eq_dec a 0) as [->|Hnz]; [reflexivity|].
  destruct (dbl_mant_spec a ltac:(lia)) as [Hc _].
  destruct (dbl_mant a) as [m q]. cbn [fst snd] in Hc. destruct Hc as (Hm & _).
  pose proof (scale_num_pos 2 m q ltac:(lia) ltac:(lia)) as P1.
  pose proof (scale_pos 2 m q ltac:(lia)) as P2.
  destruct (scale 2 m q) as [n d]. cbn [fst snd] in *. intros H.
  apply rne_unique; [exact P2|]. rewrite Z.mul_0_l, Z.sub_0_r, Z.abs_eq; lia.
Qed.
