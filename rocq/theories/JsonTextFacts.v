(** The text formats of JsonText.v read back what they write. *)
From Coq Require Import ZArith List Bool Lia.
From Coq Require Import Init.Byte.
From Coq Require Import ZifyBool ZifyNat ZifyN.
From Verif Require Import Base Bytes BytesFacts JsonText.
Import ListNotations.
Open Scope Z_scope.

(** * Decimal digits *)

Lemma digits_val_acc l : forall a,
  fold_left (fun a c => a * 10 + (c - 48)) l a
  = a * 10 ^ Z.of_nat (length l) + digits_val l.
Proof.
  unfold digits_val. induction l as [|c l IH]; intros a.
  - cbn [fold_left length]. change (10 ^ Z.of_nat 0) with 1. lia.
  - cbn [fold_left]. rewrite IH. rewrite (IH (0 * 10 + (c - 48))).
    cbn [length]. rewrite Nat2Z.inj_succ, Z.pow_succ_r by lia. ring.
Qed.

Lemma digits_val_app a b :
  digits_val (a ++ b) = digits_val a * 10 ^ Z.of_nat (length b) + digits_val b.
Proof. unfold digits_val at 1. rewrite fold_left_app. apply digits_val_acc. Qed.

Lemma digits_val_zeros k : digits_val (repeat 48 k) = 0.
Proof.
  induction k as [|k IH]; [reflexivity|].
  cbn [repeat]. change (48 :: repeat 48 k) with ([48] ++ repeat 48 k).
  rewrite digits_val_app, IH. change (digits_val [48]) with 0. lia.
Qed.

Lemma digits_val_range l : forallb is_digit l = true ->
  0 <= digits_val l < 10 ^ Z.of_nat (length l).
Proof.
  induction l as [|c l IH] using rev_ind; intros H.
  - cbn. lia.
  - rewrite forallb_app in H. cbn [forallb] in H.
    rewrite digits_val_app, app_length. cbn [length].
    change (digits_val [c]) with (0 * 10 + (c - 48)).
    rewrite Nat2Z.inj_add, Z.pow_add_r by lia. change (10 ^ Z.of_nat 1) with 10.
    apply andb_prop in H as [H1 H2]. specialize (IH H1).
    unfold is_digit in H2. lia.
Qed.

Lemma digits_aux_spec k : forall n acc, 0 <= n < 2 ^ Z.of_nat k -> (1 <= k)%nat ->
  exists ds, digits_aux k n acc = ds ++ acc /\ digits_val ds = n
    /\ forallb is_digit ds = true /\ ds <> []
    /\ (n <> 0 -> 10 ^ (Z.of_nat (length ds) - 1) <= n).
Proof.
  induction k as [|k IH]; intros n acc Hn Hk; [lia|].
  cbn [digits_aux]. destruct (n <? 10) eqn:E.
  - exists [48 + n]. split; [reflexivity|].
    split; [change (digits_val [48 + n]) with (0 * 10 + (48 + n - 48)); lia|].
    split; [cbn [forallb]; unfold is_digit; lia|]. split; [discriminate|].
    cbn [length]. change (10 ^ (Z.of_nat 1 - 1)) with 1. lia.
  - rewrite Nat2Z.inj_succ, Z.pow_succ_r in Hn by lia.
    assert (H2 : n / 10 < 2 ^ Z.of_nat k).
    { apply Z.div_lt_upper_bound; lia. }
    assert (H1 : 1 <= n / 10) by (apply Z.div_le_lower_bound; lia).
    assert (Hk' : (1 <= k)%nat).
    { destruct k; [|lia]. change (2 ^ Z.of_nat 0) with 1 in H2. lia. }
    destruct (IH (n / 10) ((48 + n mod 10) :: acc)) as (ds & E1 & V & D & N & L);
      [lia|exact Hk'|].
    exists (ds ++ [48 + n mod 10]). pose proof (Z.mod_pos_bound n 10).
    split; [rewrite E1, <- app_assoc; reflexivity|].
    split.
    { rewrite digits_val_app, V. cbn [length]. change (10 ^ Z.of_nat 1) with 10.
      change (digits_val [48 + n mod 10]) with (0 * 10 + (48 + n mod 10 - 48)).
      pose proof (Z.div_mod n 10). lia. }
    split.
    { rewrite forallb_app, D. cbn [forallb]. unfold is_digit. lia. }
    split; [destruct ds; discriminate|].
    intros _. specialize (L ltac:(lia)). rewrite app_length. cbn [length].
    destruct ds as [|c ds]; [congruence|]. cbn [length] in *.
    replace (Z.of_nat (S (length ds) + 1) - 1)
      with (Z.succ (Z.of_nat (S (length ds)) - 1)) by lia.
    rewrite Z.pow_succ_r by lia. pose proof (Z.mul_div_le n 10). lia.
Qed.

Lemma digits_spec n : 0 <= n ->
  digits_val (digits n) = n /\ forallb is_digit (digits n) = true
  /\ digits n <> []
  /\ (n <> 0 -> 10 ^ (Z.of_nat (length (digits n)) - 1) <= n).
Proof.
  intros H. unfold digits.
  destruct (digits_aux_spec (S (Z.to_nat (Z.log2 n))) n []) as (ds & E & A).
  - split; [exact H|]. rewrite Nat2Z.inj_succ, Z2Nat.id by apply Z.log2_nonneg.
    destruct (Z.eq_dec n 0) as [->|Hn]; [cbn; lia|].
    apply Z.log2_spec. lia.
  - lia.
  - rewrite E, app_nil_r. exact A.
Qed.

(** How many digits. *)
Lemma digits_length n k : 0 <= k -> 10 ^ k <= n < 10 ^ (k + 1) ->
  Z.of_nat (length (digits n)) = k + 1.
Proof.
  intros Hk Hn. assert (Hp : 0 < 10 ^ k) by (apply Z.pow_pos_nonneg; lia).
  destruct (digits_spec n ltac:(lia)) as (V & D & N & L).
  specialize (L ltac:(lia)). pose proof (digits_val_range _ D) as R.
  rewrite V in R. remember (Z.of_nat (length (digits n))) as m eqn:Em.
  assert (Hm : 1 <= m).
  { destruct (digits n); [congruence|]. cbn [length] in Em. lia. }
  assert (k < m) by (apply (Z.pow_lt_mono_r_iff 10); lia).
  assert (m - 1 < k + 1) by (apply (Z.pow_lt_mono_r_iff 10); lia).
  lia.
Qed.

Lemma py_int_digits l : l <> [] -> forallb is_digit l = true ->
  py_int l = Some (digits_val l).
Proof.
  intros N D. unfold py_int. destruct l as [|c l]; [congruence|].
  pose proof D as D'. cbn [forallb] in D'. unfold is_digit at 1 in D'.
  assert (Hc : 48 <= c <= 57) by lia.
  rewrite D.
  destruct c as [|p|p]; try lia.
  do 6 (destruct p as [p|p|]; try reflexivity; try lia).
Qed.

Theorem py_int_text z : py_int (int_text z) = Some z.
Proof.
  unfold int_text. destruct (z <? 0) eqn:E.
  - destruct (digits_spec (- z) ltac:(lia)) as (V & D & N & _).
    unfold py_int. destruct (digits (- z)) as [|c l] eqn:El; [congruence|].
    rewrite D, V. cbn [option_map]. f_equal. lia.
  - destruct (digits_spec z ltac:(lia)) as (V & D & N & _).
    rewrite py_int_digits, V; auto.
Qed.

(** Which characters an integer is written with. *)
Definition num_char (c : Z) : bool :=
  is_digit c || (c =? 43) || (c =? 45) || (c =? 46) || (c =? 69) || (c =? 101).

Lemma digits_num l : forallb is_digit l = true -> forallb num_char l = true.
Proof.
  rewrite !forallb_forall. intros H c Hc. specialize (H c Hc).
  unfold num_char. rewrite H. reflexivity.
Qed.

Lemma int_text_num z : forallb num_char (int_text z) = true.
Proof.
  unfold int_text. destruct (z <? 0) eqn:E.
  - cbn [forallb]. apply andb_true_intro. split; [reflexivity|].
    apply digits_num, digits_spec. lia.
  - apply digits_num, digits_spec. lia.
Qed.

Lemma int_text_nonempty z : int_text z <> [].
Proof.
  unfold int_text. destruct (z <? 0) eqn:E; [discriminate|].
  apply digits_spec. lia.
Qed.

Lemma digits_len_le n k : 0 <= k -> 0 <= n < 10 ^ (k + 1) ->
  Z.of_nat (length (digits n)) <= k + 1.
Proof.
  intros Hk Hn. destruct (digits_spec n ltac:(lia)) as (V & D & N & L).
  destruct (Z.eq_dec n 0) as [->|Hz]; [cbn; lia|].
  specialize (L Hz). remember (Z.of_nat (length (digits n))) as m eqn:Em.
  assert (m - 1 < k + 1); [|lia].
  destruct (Z.ltb_spec (m - 1) 0); [lia|].
  apply (Z.pow_lt_mono_r_iff 10); lia.
Qed.

Lemma int_text_len z : -9223372036854775808 <= z <= 9223372036854775807 ->
  Z.of_nat (length (int_text z)) <= 20.
Proof.
  intros H. unfold int_text. destruct (z <? 0) eqn:E.
  - cbn [length]. pose proof (digits_len_le (- z) 18). lia.
  - pose proof (digits_len_le z 18). lia.
Qed.

(** * Rounding *)

Lemma rne_spec n d : 0 < d -> 2 * Z.abs (n - rne n d * d) <= d.
Proof.
  intros Hd. unfold rne. pose proof (Z.div_mod n d ltac:(lia)) as E.
  pose proof (Z.mod_pos_bound n d Hd).
  destruct (2 * (n mod d) <? d) eqn:E1; [nia|].
  destruct (d <? 2 * (n mod d)) eqn:E2; [nia|].
  destruct (Z.even (n / d)); nia.
Qed.

Lemma rne_unique n d m : 0 < d -> 2 * Z.abs (n - m * d) < d -> rne n d = m.
Proof.
  intros Hd H. pose proof (rne_spec n d Hd).
  assert (Z.abs ((rne n d - m) * d) < d) by nia.
  nia.
Qed.

Lemma scale_pos b n e : 0 < b -> 0 < snd (scale b n e).
Proof.
  intros H. unfold scale. destruct (0 <=? e) eqn:E; cbn [snd]; [lia|].
  apply Z.pow_pos_nonneg; lia.
Qed.

Lemma scale_num_pos b n e : 0 < b -> 0 < n -> 0 < fst (scale b n e).
Proof.
  intros H Hn. unfold scale. destruct (0 <=? e) eqn:E; cbn [fst]; [|lia].
  apply Z.mul_pos_pos; [lia|]. apply Z.pow_pos_nonneg; lia.
Qed.

(** The fraction, over a common power. *)
Lemma scale_eq b n e B : 0 < b -> 0 <= B -> - B <= e ->
  fst (scale b n e) * b ^ B = n * b ^ (e + B) * snd (scale b n e).
Proof.
  intros H HB He. unfold scale. destruct (0 <=? e) eqn:E; cbn [fst snd].
  - rewrite Z.pow_add_r by lia. ring.
  - rewrite <- Z.mul_assoc, <- Z.pow_add_r by lia. f_equal. f_equal. lia.
Qed.

Lemma scale_one b n e : scale b n e = (n * fst (scale b 1 e), snd (scale b 1 e)).
Proof.
  unfold scale. destruct (0 <=? e) eqn:E; cbn [fst snd]; f_equal; ring.
Qed.

Lemma bin_exp_spec n d B : 0 < n -> 0 < d -> 0 <= B -> - B <= bin_exp n d ->
  2 ^ (bin_exp n d + B) * d <= n * 2 ^ B < 2 ^ (bin_exp n d + 1 + B) * d.
Proof.
  intros Hn Hd HB. unfold bin_exp. set (k := Z.log2 n - Z.log2 d).
  pose proof (Z.log2_spec n Hn) as [Ln Un]. pose proof (Z.log2_spec d Hd) as [Ld Ud].
  pose proof (Z.log2_nonneg n). pose proof (Z.log2_nonneg d).
  destruct (scale 2 1 k) as [a b] eqn:Es.
  assert (Ha : fst (scale 2 1 k) = a) by (rewrite Es; reflexivity).
  assert (Hb : snd (scale 2 1 k) = b) by (rewrite Es; reflexivity).
  assert (Hb0 : 0 < b) by (rewrite <- Hb; apply scale_pos; lia).
  (* 2^(k-1) < n/d < 2^(k+1), over 2^B *)
  assert (K1 : - B <= k - 1 -> 2 ^ (k - 1 + B) * d <= n * 2 ^ B).
  { intros Hk. transitivity (2 ^ (k - 1 + B) * 2 ^ Z.succ (Z.log2 d)).
    - apply Z.mul_le_mono_nonneg_l; [apply Z.pow_nonneg; lia|lia].
    - rewrite <- Z.pow_add_r by lia.
      replace (k - 1 + B + Z.succ (Z.log2 d)) with (Z.log2 n + B) by lia.
      rewrite Z.pow_add_r by lia. apply Z.mul_le_mono_nonneg_r; [|lia].
      apply Z.pow_nonneg; lia. }
  assert (K2 : - B <= k + 1 -> n * 2 ^ B < 2 ^ (k + 1 + B) * d).
  { intros Hk. apply Z.lt_le_trans with (2 ^ (k + 1 + B) * 2 ^ Z.log2 d).
    - rewrite <- Z.pow_add_r by lia.
      replace (k + 1 + B + Z.log2 d) with (Z.succ (Z.log2 n) + B) by lia.
      rewrite Z.pow_add_r by lia. apply Z.mul_lt_mono_pos_r; [|lia].
      apply Z.pow_pos_nonneg; lia.
    - apply Z.mul_le_mono_nonneg_l; [apply Z.pow_nonneg; lia|lia]. }
  destruct (a * d <=? n * b) eqn:E; intros Hk.
  - pose proof (scale_eq 2 1 k B ltac:(lia) HB Hk) as S.
    rewrite Ha, Hb in S. split; [|apply K2; lia].
    assert (a * d * 2 ^ B <= n * b * 2 ^ B).
    { apply Z.mul_le_mono_nonneg_r; [apply Z.pow_nonneg; lia|lia]. }
    apply Z.mul_le_mono_pos_l with b; [lia|]. nia.
  - replace (k - 1 + 1) with k by lia. split; [apply K1; lia|].
    pose proof (scale_eq 2 1 k B ltac:(lia) HB ltac:(lia)) as S.
    rewrite Ha, Hb in S.
    assert (n * b * 2 ^ B < a * d * 2 ^ B).
    { apply Z.mul_lt_mono_pos_r; [apply Z.pow_pos_nonneg; lia|lia]. }
    apply Z.mul_lt_mono_pos_l with b; [lia|]. nia.
Qed.

Lemma rne_scaled n d q m B : 0 < d -> 0 <= B -> - B <= q <= B ->
  2 * Z.abs (n * 2 ^ B - m * (2 ^ (q + B) * d)) < 2 ^ (q + B) * d ->
  rne (n * fst (scale 2 1 (- q))) (d * snd (scale 2 1 (- q))) = m.
Proof.
  intros Hd HB Hq H.
  pose proof (scale_eq 2 1 (- q) B ltac:(lia) HB ltac:(lia)) as S.
  pose proof (scale_pos 2 1 (- q) ltac:(lia)) as Hb.
  destruct (scale 2 1 (- q)) as [a b]. cbn [fst snd] in *.
  apply rne_unique; [apply Z.mul_pos_pos; assumption|].
  assert (P1 : 0 < 2 ^ (q + B)) by (apply Z.pow_pos_nonneg; lia).
  assert (P2 : 0 < 2 ^ B) by (apply Z.pow_pos_nonneg; lia).
  assert (E : 2 ^ (- q + B) * 2 ^ (q + B) = 2 ^ B * 2 ^ B).
  { rewrite <- !Z.pow_add_r by lia. f_equal. lia. }
  assert (E1 : (n * a - m * (d * b)) * (2 ^ B * 2 ^ (q + B))
               = b * 2 ^ B * (n * 2 ^ B - m * (2 ^ (q + B) * d))).
  { transitivity (n * (a * 2 ^ B) * 2 ^ (q + B)
                  - m * (d * b) * (2 ^ B * 2 ^ (q + B))); [ring|].
    rewrite S.
    transitivity (n * b * (2 ^ (- q + B) * 2 ^ (q + B))
                  - m * (d * b) * (2 ^ B * 2 ^ (q + B))); [ring|].
    rewrite E. ring. }
  assert (P3 : 0 < 2 ^ B * 2 ^ (q + B)) by (apply Z.mul_pos_pos; assumption).
  apply Z.mul_lt_mono_pos_r with (2 ^ B * 2 ^ (q + B)); [exact P3|].
  replace (2 * Z.abs (n * a - m * (d * b)) * (2 ^ B * 2 ^ (q + B)))
    with (2 * Z.abs ((n * a - m * (d * b)) * (2 ^ B * 2 ^ (q + B))))
    by (rewrite Z.abs_mul, (Z.abs_eq (2 ^ B * 2 ^ (q + B))) by lia; ring).
  assert (P4 : 0 < b * 2 ^ B) by (apply Z.mul_pos_pos; assumption).
  rewrite E1, Z.abs_mul, (Z.abs_eq (b * 2 ^ B)) by lia.
  replace (d * b * (2 ^ B * 2 ^ (q + B))) with (b * 2 ^ B * (2 ^ (q + B) * d)) by ring.
  rewrite Z.mul_assoc, (Z.mul_comm 2), <- Z.mul_assoc.
  apply Z.mul_lt_mono_pos_l; assumption.
Qed.

(** The mantissa and exponent of a positive double. *)
Definition canonical (M Q : Z) : Prop :=
  0 < M < 2 ^ 53 /\ -1074 <= Q <= 971 /\ (-1074 < Q -> 2 ^ 52 <= M).

(** A fraction within [1 / (2 * 10^16)] of a double is rounded to it. *)
Lemma dbl_round_near n d M Q B : 0 < n -> 0 < d -> canonical M Q ->
  1200 <= B -> - B <= bin_exp n d ->
  2 * 10 ^ 16 * Z.abs (n * 2 ^ B - M * (2 ^ (Q + B) * d))
    <= M * (2 ^ (Q + B) * d) ->
  dbl_round n d = (Q + 1074) * 2 ^ 52 + M.
Proof.
  intros Hn Hd (HM & HQ & Hc) HB Hk H.
  pose proof (bin_exp_spec n d B Hn Hd ltac:(lia) Hk) as [K1 K2].
  set (k := bin_exp n d) in *. set (T := 2 ^ (Q + B) * d) in *.
  assert (HT : 0 < T).
  { apply Z.mul_pos_pos; [apply Z.pow_pos_nonneg; lia|exact Hd]. }
  assert (Pw : forall e, 0 <= e -> 2 ^ (Q + e + B) * d = 2 ^ e * T).
  { intros e He. subst T. replace (Q + e + B) with (e + (Q + B)) by lia.
    rewrite Z.pow_add_r by lia. ring. }
  assert (Mono : forall a b, a <= b -> - B <= a -> 2 ^ (a + B) * d <= 2 ^ (b + B) * d).
  { intros a b Hab Ha. apply Z.mul_le_mono_nonneg_r; [lia|].
    apply Z.pow_le_mono_r; lia. }
  assert (MT : M * T <= (2 ^ 53 - 1) * T)
    by (apply Z.mul_le_mono_nonneg_r; lia).
  change (2 ^ 53) with 9007199254740992 in *.
  change (2 ^ 52) with 4503599627370496 in *.
  change (10 ^ 16) with 10000000000000000 in *.
  (* k is not above the binade *)
  assert (C : k <= Q + 52).
  { destruct (Z.le_gt_cases k (Q + 52)) as [G|G]; [exact G|exfalso].
    pose proof (Mono (Q + 53) k ltac:(lia) ltac:(lia)).
    rewrite (Pw 53) in H0 by lia. change (2 ^ 53) with 9007199254740992 in H0.
    lia. }
  unfold dbl_round. destruct (n =? 0) eqn:En; [lia|]. fold k.
  assert (Final : forall q m, Z.max (k - 52) (-1074) = q ->
    -1074 <= q <= 971 ->
    2 * Z.abs (n * 2 ^ B - m * (2 ^ (q + B) * d)) < 2 ^ (q + B) * d ->
    (q + 1074) * 4503599627370496 + m = (Q + 1074) * 4503599627370496 + M ->
    (let (a, b) := scale 2 1 (- Z.max (k - 52) (-1074)) in
     Z.min DBL_INF ((Z.max (k - 52) (-1074) + 1074) * 2 ^ 52 + rne (n * a) (d * b)))
    = (Q + 1074) * 4503599627370496 + M).
  { intros q m Eq Hq Hr Eqm. rewrite Eq.
    pose proof (rne_scaled n d q m B Hd ltac:(lia) ltac:(lia) Hr) as R.
    destruct (scale 2 1 (- q)) as [a b]. cbn [fst snd] in R. rewrite R.
    change (2 ^ 52) with 4503599627370496. rewrite Eqm. unfold DBL_INF. lia. }
  destruct (Z.eq_dec (Z.max (k - 52) (-1074)) Q) as [E|E].
  - apply (Final Q M E HQ); [|reflexivity]. fold T. lia.
  - (* just below a power of two *)
    assert (Hlt : k - 52 < Q) by lia.
    assert (HQ' : -1074 < Q) by lia. specialize (Hc HQ').
    assert (HN : n * 2 ^ B < 4503599627370496 * T).
    { eapply Z.lt_le_trans; [exact K2|].
      transitivity (2 ^ (Q + 52 + B) * d); [apply Mono; lia|].
      rewrite (Pw 52) by lia. change (2 ^ 52) with 4503599627370496. lia. }
    assert (EM : M = 4503599627370496).
    { destruct (Z.le_gt_cases M 4503599627370496); [lia|exfalso].
      assert (4503599627370497 * T <= M * T)
        by (apply Z.mul_le_mono_nonneg_r; lia). lia. }
    subst M.
    assert (Ek : k = Q + 51).
    { destruct (Z.le_gt_cases k (Q + 50)) as [G|G]; [exfalso|lia].
      pose proof (Mono (k + 1) (Q + 51) ltac:(lia) ltac:(lia)).
      rewrite (Pw 51) in H0 by lia. change (2 ^ 51) with 2251799813685248 in H0.
      lia. }
    apply (Final (Q - 1) 9007199254740992); [lia|lia| |lia].
    assert (ET : T = 2 * (2 ^ (Q - 1 + B) * d)).
    { subst T. replace (Q + B) with (1 + (Q - 1 + B)) by lia.
      rewrite Z.pow_add_r by lia. change (2 ^ 1) with 2. ring. }
    rewrite ET in H. clear - H HT ET. rewrite ET in HT. clear ET.
    revert H HT. generalize (2 ^ (Q - 1 + B) * d) as T', (n * 2 ^ B) as N. lia.
Qed.

(** * Layout of a double *)

Lemma strip0_spec l : exists z, l = strip0 l ++ repeat 48 z.
Proof.
  assert (G : forall r, exists z, r = repeat 48 z ++ strip0_rev r).
  { induction r as [|c r [z IH]]; [exists O; reflexivity|].
    cbn [strip0_rev]. destruct (c =? 48) eqn:E.
    - exists (S z). apply Z.eqb_eq in E. subst c. cbn [repeat app]. f_equal. exact IH.
    - exists O. reflexivity. }
  destruct (G (rev l)) as [z Hz]. exists z. unfold strip0.
  rewrite <- (rev_involutive l) at 1. rewrite Hz at 1. rewrite rev_app_distr.
  f_equal. clear. induction z as [|z IH]; [reflexivity|].
  cbn [repeat rev]. rewrite IH. symmetry.
  change (48 :: repeat 48 z) with (repeat 48 (S z)).
  rewrite <- (Nat.add_1_r z), repeat_app. reflexivity.
Qed.

Lemma span_digits_app a b : forallb is_digit a = true ->
  match b with c :: _ => is_digit c = false | [] => True end ->
  span_digits (a ++ b) = (a, b).
Proof.
  intros Ha Hb. induction a as [|c a IH].
  - destruct b as [|c b]; [reflexivity|]. cbn [app span_digits].
    rewrite Hb. reflexivity.
  - cbn [forallb] in Ha. apply andb_prop in Ha as [H1 H2].
    cbn [app span_digits]. rewrite H1, (IH H2). reflexivity.
Qed.

Lemma digit_not_point c : is_digit c = true -> c <> 46 /\ c <> 45 /\ c <> 43.
Proof. unfold is_digit. lia. Qed.

Definition plain_tail (t : list Z) : Prop :=
  match t with c :: _ => is_digit c = false /\ c <> 46 | [] => True end.

Lemma dec_literal_point i fr t x : i <> [] -> forallb is_digit i = true ->
  forallb is_digit fr = true -> plain_tail t -> exp_part t = Some x ->
  dec_literal (i ++ point fr ++ t)
  = Some (digits_val (i ++ strip0 fr), x - Z.of_nat (length (strip0 fr))).
Proof.
  intros Ni Di Df Ht Ex. unfold dec_literal, point.
  destruct (strip0_spec fr) as [z Hz].
  assert (Ds : forallb is_digit (strip0 fr) = true).
  { rewrite Hz, forallb_app in Df. apply andb_prop in Df as [H _]. exact H. }
  destruct (strip0 fr) as [|f0 f] eqn:Ef.
  - cbn [app]. rewrite span_digits_app; [|exact Di|destruct t; [exact I|apply Ht]].
    assert (E : match t with 46 :: r0 => span_digits r0 | _ => ([], t) end
                = ([], t)).
    { destruct t as [|c t]; [reflexivity|]. destruct Ht as [_ Hc].
      destruct c as [|p|p]; try reflexivity.
      do 6 (destruct p as [p|p|]; try reflexivity). congruence. }
    rewrite E, app_nil_r. destruct i as [|i0 i]; [congruence|]. rewrite Ex.
    reflexivity.
  - change ((46 :: f0 :: f) ++ t) with (46 :: ((f0 :: f) ++ t)).
    rewrite span_digits_app; [|exact Di|reflexivity].
    rewrite span_digits_app; [|exact Ds|destruct t; [exact I|apply Ht]].
    destruct i as [|i0 i]; [congruence|]. cbn [app]. rewrite Ex. reflexivity.
Qed.

Definition exp_text (e : Z) : list Z :=
  101 :: (if e <? 0 then 45 else 43)
  :: (if Z.abs e <? 10 then 48 :: digits (Z.abs e) else digits (Z.abs e)).

Lemma exp_text_val e : exp_part (exp_text e) = Some e.
Proof.
  unfold exp_part, exp_text.
  replace ((101 =? 101) || (101 =? 69)) with true by reflexivity.
  destruct (digits_spec (Z.abs e) ltac:(lia)) as (V & D & N & _).
  set (ds := if Z.abs e <? 10 then _ else _).
  assert (Hds : ds <> [] /\ forallb is_digit ds = true /\ digits_val ds = Z.abs e).
  { subst ds. destruct (Z.abs e <? 10).
    - split; [discriminate|]. split; [cbn [forallb]; rewrite D; reflexivity|].
      change (48 :: digits (Z.abs e)) with ([48] ++ digits (Z.abs e)).
      rewrite digits_val_app, V. change (digits_val [48]) with 0. lia.
    - auto. }
  clearbody ds. destruct Hds as (N' & D' & V').
  destruct (e <? 0) eqn:E; unfold py_int; destruct ds; try congruence; rewrite D', V';
    cbn [option_map]; f_equal; lia.
Qed.

Lemma g_layout_spec k e : 10 ^ 16 <= k < 10 ^ 17 ->
  exists N z, dec_literal (g_layout k e) = Some (N, e - 16 + z)
    /\ 0 <= z /\ k = N * 10 ^ z.
Proof.
  intros Hk. destruct (digits_spec k ltac:(lia)) as (V & D & N & _).
  pose proof (digits_length k 16 ltac:(lia) ltac:(exact Hk)) as L.
  unfold g_layout. set (ds := digits k) in *. clearbody ds.
  assert (Cut : forall i fr, ds = i ++ fr -> i <> [] ->
    forall t x, plain_tail t -> exp_part t = Some x -> forall p,
    Z.of_nat (length i) = p ->
    exists N z, dec_literal (i ++ point fr ++ t) = Some (N, x - 17 + p + z)
      /\ 0 <= z /\ k = N * 10 ^ z).
  { intros i fr Eds Ni t x Ht Ex p Hp. rewrite Eds, forallb_app in D.
    apply andb_prop in D as [Di Df].
    rewrite (dec_literal_point i fr t x Ni Di Df Ht Ex).
    destruct (strip0_spec fr) as [z Hz].
    exists (digits_val (i ++ strip0 fr)), (Z.of_nat z).
    assert (Hl : Z.of_nat (length (strip0 fr)) = 17 - p - Z.of_nat z).
    { rewrite Eds, app_length in L. rewrite Hz, app_length, repeat_length in L. lia. }
    split; [f_equal; f_equal; lia|]. split; [lia|].
    rewrite <- V, Eds, Hz at 1. rewrite app_assoc, digits_val_app.
    rewrite digits_val_zeros, repeat_length. lia. }
  destruct ((-4 <=? e) && (e <? 17)) eqn:Ee.
  - destruct (e <? 0) eqn:E0.
    + destruct (strip0_spec ds) as [z Hz].
      assert (Ds : forallb is_digit (strip0 ds) = true).
      { rewrite Hz, forallb_app in D. apply andb_prop in D as [H _]. exact H. }
      exists (digits_val (strip0 ds)), (Z.of_nat z).
      assert (Dz : forallb is_digit (repeat 48 (Z.to_nat (- e - 1)) ++ strip0 ds)
                   = true).
      { rewrite forallb_app, Ds, andb_true_r. apply forallb_forall.
        intros c Hc. apply repeat_spec in Hc. subst c. reflexivity. }
      split; [|split; [lia|]].
      * unfold dec_literal.
        change (48 :: 46 :: repeat 48 (Z.to_nat (- e - 1)) ++ strip0 ds)
          with ([48] ++ (46 :: repeat 48 (Z.to_nat (- e - 1)) ++ strip0 ds)).
        rewrite span_digits_app by reflexivity.
        rewrite <- (app_nil_r (_ ++ strip0 ds)).
        rewrite span_digits_app by (exact Dz || exact I).
        cbn [app exp_part]. f_equal. f_equal.
        -- change (48 :: repeat 48 (Z.to_nat (- e - 1)) ++ strip0 ds)
             with (repeat 48 (S (Z.to_nat (- e - 1))) ++ strip0 ds).
           rewrite digits_val_app, digits_val_zeros. lia.
        -- rewrite app_length, repeat_length.
           rewrite Hz, app_length, repeat_length in L. lia.
      * rewrite <- V at 1. rewrite Hz at 1.
        rewrite digits_val_app, digits_val_zeros, repeat_length. lia.
    + destruct (Cut (firstn (Z.to_nat (e + 1)) ds) (skipn (Z.to_nat (e + 1)) ds))
        with (t := @nil Z) (x := 0) (p := e + 1) as (N' & z & H).
      * symmetry. apply firstn_skipn.
      * intros C. apply (f_equal (@length Z)) in C. rewrite firstn_length in C.
        change (length (@nil Z)) with 0%nat in C. lia.
      * exact I.
      * reflexivity.
      * rewrite firstn_length. lia.
      * exists N', z. rewrite app_nil_r in H.
        replace (e - 16 + z) with (0 - 17 + (e + 1) + z) by lia. exact H.
  - destruct (Cut (firstn 1 ds) (skipn 1 ds)) with (t := exp_text e) (x := e) (p := 1)
      as (N' & z & H).
    * symmetry. apply firstn_skipn.
    * destruct ds; [congruence|discriminate].
    * split; [reflexivity|discriminate].
    * apply exp_text_val.
    * rewrite firstn_length. lia.
    * exists N', z. replace (e - 16 + z) with (e - 17 + 1 + z) by lia. exact H.
Qed.

(** Characters and length of the layout. *)
Lemma forallb_incl {A} (p : A -> bool) l l' : (forall x, In x l' -> In x l) ->
  forallb p l = true -> forallb p l' = true.
Proof. rewrite !forallb_forall. auto. Qed.

Lemma strip0_in l x : In x (strip0 l) -> In x l.
Proof.
  destruct (strip0_spec l) as [z H]. intros Hx. rewrite H. apply in_or_app. auto.
Qed.

Lemma strip0_len l : (length (strip0 l) <= length l)%nat.
Proof.
  destruct (strip0_spec l) as [z H]. rewrite H at 2. rewrite app_length. lia.
Qed.

Lemma point_num l : forallb is_digit l = true -> forallb num_char (point l) = true.
Proof.
  intros H. unfold point. pose proof (forallb_incl is_digit l (strip0 l) (strip0_in l) H).
  destruct (strip0 l); [reflexivity|].
  cbn [forallb]. apply andb_true_intro. split; [reflexivity|].
  apply digits_num in H0. exact H0.
Qed.

Lemma point_len l : (length (point l) <= S (length l))%nat.
Proof.
  unfold point. pose proof (strip0_len l).
  destruct (strip0 l); cbn [length] in *; lia.
Qed.

Lemma firstn_digits n l : forallb is_digit l = true -> forallb is_digit (firstn n l) = true.
Proof.
  apply forallb_incl. intros x Hx. rewrite <- (firstn_skipn n l). apply in_or_app. auto.
Qed.
Lemma skipn_digits n l : forallb is_digit l = true -> forallb is_digit (skipn n l) = true.
Proof.
  apply forallb_incl. intros x Hx. rewrite <- (firstn_skipn n l). apply in_or_app. auto.
Qed.

Lemma g_layout_chars k e : 10 ^ 16 <= k < 10 ^ 17 -> -400 <= e <= 400 ->
  forallb num_char (g_layout k e) = true
  /\ match g_layout k e with c :: _ => is_digit c = true | [] => False end
  /\ (length (g_layout k e) <= 23)%nat.
Proof.
  intros Hk He. destruct (digits_spec k ltac:(lia)) as (V & D & N & _).
  pose proof (digits_length k 16 ltac:(lia) ltac:(exact Hk)) as L.
  unfold g_layout. set (ds := digits k) in *. clearbody ds.
  assert (Hd : forall i fr t, i <> [] -> forallb is_digit i = true ->
    forallb is_digit fr = true -> forallb num_char t = true ->
    forallb num_char (i ++ point fr ++ t) = true
    /\ match i ++ point fr ++ t with c :: _ => is_digit c = true | [] => False end).
  { intros i fr t Ni Di Df Dt. split.
    - rewrite !forallb_app, (digits_num _ Di), (point_num _ Df), Dt. reflexivity.
    - destruct i as [|c i]; [congruence|]. cbn [app forallb] in *.
      apply andb_prop in Di. apply Di. }
  destruct ((-4 <=? e) && (e <? 17)) eqn:Ee.
  - destruct (e <? 0) eqn:E0.
    + split; [|split; [reflexivity|]].
      * cbn [forallb]. do 2 (apply andb_true_intro; split; [reflexivity|]).
        rewrite forallb_app. apply andb_true_intro. split.
        -- apply digits_num, forallb_forall. intros c Hc. apply repeat_spec in Hc.
           subst c. reflexivity.
        -- apply digits_num. eapply forallb_incl; [apply strip0_in|exact D].
      * cbn [length]. rewrite app_length, repeat_length. pose proof (strip0_len ds). lia.
    + destruct (Hd (firstn (Z.to_nat (e + 1)) ds) (skipn (Z.to_nat (e + 1)) ds) [])
        as [H1 H2].
      * intros C. apply (f_equal (@length Z)) in C. rewrite firstn_length in C.
        change (length (@nil Z)) with 0%nat in C. lia.
      * apply firstn_digits, D.
      * apply skipn_digits, D.
      * reflexivity.
      * rewrite app_nil_r in H1, H2. split; [exact H1|]. split; [exact H2|].
        rewrite app_length, firstn_length.
        pose proof (point_len (skipn (Z.to_nat (e + 1)) ds)).
        rewrite skipn_length in H. lia.
  - destruct (Hd (firstn 1 ds) (skipn 1 ds) (exp_text e)) as [H1 H2].
    * destruct ds; [congruence|discriminate].
    * apply firstn_digits, D.
    * apply skipn_digits, D.
    * destruct (digits_spec (Z.abs e) ltac:(lia)) as (V' & D' & N' & _).
      unfold exp_text. cbn [forallb]. apply andb_true_intro. split; [reflexivity|].
      apply andb_true_intro. split; [destruct (e <? 0); reflexivity|].
      apply digits_num. destruct (Z.abs e <? 10); [|exact D'].
      cbn [forallb]. rewrite D'. reflexivity.
    * split; [exact H1|]. split; [exact H2|].
      fold (exp_text e). rewrite !app_length, firstn_length.
      pose proof (point_len (skipn 1 ds)). rewrite skipn_length in H.
      assert (length (exp_text e) <= 5)%nat; [|lia].
      unfold exp_text. cbn [length].
      destruct (Z.abs e <? 10) eqn:E10; cbn [length].
      -- pose proof (digits_len_le (Z.abs e) 0). lia.
      -- pose proof (digits_len_le (Z.abs e) 2). lia.
Qed.

(** * Doubles *)

Lemma dbl_mant_spec a : 0 < a < DBL_INF ->
  canonical (fst (dbl_mant a)) (snd (dbl_mant a))
  /\ (snd (dbl_mant a) + 1074) * 2 ^ 52 + fst (dbl_mant a) = a.
Proof.
  intros H. unfold DBL_INF in H. unfold canonical, dbl_mant.
  change (2 ^ 53) with 9007199254740992.
  change (2 ^ 52) with 4503599627370496.
  destruct (a <? 4503599627370496) eqn:E; cbn [fst snd]; [lia|].
  pose proof (Z.div_mod a 4503599627370496 ltac:(lia)).
  pose proof (Z.mod_pos_bound a 4503599627370496 ltac:(lia)).
  set (q := a / 4503599627370496) in *. set (r := a mod 4503599627370496) in *.
  clearbody q r. lia.
Qed.

Lemma dec_exp_ok_spec n d e B : 0 <= B -> - B <= e -> 0 < n -> 0 < d ->
  dec_exp_ok n d e = true ->
  10 ^ (e + B) * d <= n * 10 ^ B < 10 ^ (e + 1 + B) * d.
Proof.
  intros HB He Hn Hd. unfold dec_exp_ok.
  pose proof (scale_eq 10 1 e B ltac:(lia) HB He) as S1.
  pose proof (scale_eq 10 1 (e + 1) B ltac:(lia) HB ltac:(lia)) as S2.
  pose proof (scale_pos 10 1 e ltac:(lia)) as P1.
  pose proof (scale_pos 10 1 (e + 1) ltac:(lia)) as P2.
  destruct (scale 10 1 e) as [n1 d1]. destruct (scale 10 1 (e + 1)) as [n2 d2].
  cbn [fst snd] in *. intros H. apply andb_prop in H as [H1 H2].
  assert (PB : 0 < 10 ^ B) by (apply Z.pow_pos_nonneg; lia).
  split.
  - apply Z.mul_le_mono_pos_l with d1; [exact P1|].
    transitivity (n1 * 10 ^ B * d); [rewrite S1; lia|].
    transitivity (10 ^ B * (n1 * d)); [lia|].
    transitivity (10 ^ B * (n * d1)); [|lia].
    apply Z.mul_le_mono_nonneg_l; lia.
  - apply Z.mul_lt_mono_pos_l with d2; [exact P2|].
    apply Z.le_lt_trans with (10 ^ B * (n * d2)); [lia|].
    apply Z.lt_le_trans with (10 ^ B * (n2 * d)).
    + apply Z.mul_lt_mono_pos_l; lia.
    + transitivity (n2 * 10 ^ B * d); [lia|rewrite S2; lia].
Qed.

Lemma dec_exp_ok_intro n d e B : 0 <= B -> - B <= e -> 0 < n -> 0 < d ->
  10 ^ (e + B) * d <= n * 10 ^ B < 10 ^ (e + 1 + B) * d ->
  dec_exp_ok n d e = true.
Proof.
  intros HB He Hn Hd. unfold dec_exp_ok.
  pose proof (scale_eq 10 1 e B ltac:(lia) HB He) as S1.
  pose proof (scale_eq 10 1 (e + 1) B ltac:(lia) HB ltac:(lia)) as S2.
  pose proof (scale_pos 10 1 e ltac:(lia)) as P1.
  pose proof (scale_pos 10 1 (e + 1) ltac:(lia)) as P2.
  destruct (scale 10 1 e) as [n1 d1]. destruct (scale 10 1 (e + 1)) as [n2 d2].
  cbn [fst snd] in *. intros [H1 H2].
  assert (PB : 0 < 10 ^ B) by (apply Z.pow_pos_nonneg; lia).
  apply andb_true_intro. split.
  - apply Z.leb_le. apply Z.mul_le_mono_pos_l with (10 ^ B); [exact PB|].
    transitivity (n1 * 10 ^ B * d); [lia|]. rewrite S1.
    transitivity (d1 * (10 ^ (e + B) * d)); [lia|].
    transitivity (d1 * (n * 10 ^ B)); [|lia].
    apply Z.mul_le_mono_nonneg_l; lia.
  - apply Z.ltb_lt. apply Z.mul_lt_mono_pos_l with (10 ^ B); [exact PB|].
    apply Z.le_lt_trans with (d2 * (n * 10 ^ B)); [lia|].
    apply Z.lt_le_trans with (d2 * (10 ^ (e + 1 + B) * d)).
    + apply Z.mul_lt_mono_pos_l; lia.
    + transitivity (n2 * 10 ^ B * d); [rewrite S2; lia|lia].
Qed.

Lemma find_zrange n d B : 0 < n -> 0 < d -> forall k lo, - B <= lo -> 0 <= B ->
  10 ^ (lo + B) * d <= n * 10 ^ B < 10 ^ (lo + Z.of_nat k + B) * d ->
  exists e, In e (zrange k lo) /\ dec_exp_ok n d e = true.
Proof.
  intros Hn Hd. induction k as [|k IH]; intros lo Hlo HB H.
  - replace (lo + Z.of_nat 0 + B) with (lo + B) in H by lia. lia.
  - cbn [zrange]. destruct (Z.le_gt_cases (10 ^ (lo + 1 + B) * d) (n * 10 ^ B)).
    + destruct (IH (lo + 1) ltac:(lia) HB) as (e & He & Ok).
      * replace (lo + 1 + Z.of_nat k + B) with (lo + Z.of_nat (S k) + B) by lia. lia.
      * exists e. split; [right; exact He|exact Ok].
    + exists lo. split; [left; reflexivity|].
      apply (dec_exp_ok_intro n d lo B); lia.
Qed.

Lemma dec_exp_find n d B : 0 < n -> 0 < d -> 400 <= B ->
  10 ^ (-325 + B) * d <= n * 10 ^ B < 10 ^ (315 + B) * d ->
  dec_exp_ok n d (dec_exp n d) = true.
Proof.
  intros Hn Hd HB H. unfold dec_exp.
  destruct (find _ _) as [e|] eqn:E; [apply find_some in E; apply E|exfalso].
  destruct (find_zrange n d B Hn Hd 640 (-325) ltac:(lia) ltac:(lia)) as (e & He & Ok).
  { replace (-325 + Z.of_nat 640 + B) with (315 + B) by lia. exact H. }
  pose proof (find_none _ _ E e ltac:(do 3 right; exact He)). congruence.
Qed.

(** The 17 digits: their number, and how close they are. *)
Lemma dec_close n d e : 0 < n -> 0 < d -> dec_exp_ok n d e = true ->
  let k := rne (n * fst (scale 10 1 (16 - e))) (d * snd (scale 10 1 (16 - e))) in
  10 ^ 16 <= k <= 10 ^ 17
  /\ forall N z, 0 <= z -> k = N * 10 ^ z ->
     2 * 10 ^ 16 * Z.abs (n * snd (scale 10 N (e - 16 + z))
                          - fst (scale 10 N (e - 16 + z)) * d)
     <= n * snd (scale 10 N (e - 16 + z)).
Proof.
  intros Hn Hd He k.
  set (B := Z.abs e + 100).
  pose proof (dec_exp_ok_spec n d e B ltac:(lia) ltac:(lia) Hn Hd He) as [X1 X2].
  pose proof (scale_eq 10 1 (16 - e) B ltac:(lia) ltac:(lia) ltac:(lia)) as S.
  pose proof (scale_pos 10 1 (16 - e) ltac:(lia)) as P.
  subst k. destruct (scale 10 1 (16 - e)) as [n1 d1]. cbn [fst snd] in *.
  rewrite Z.mul_1_l in S.
  assert (Pdd : 0 < d * d1) by (apply Z.mul_pos_pos; assumption).
  pose proof (rne_spec (n * n1) (d * d1) Pdd) as R.
  set (k := rne (n * n1) (d * d1)) in *. clearbody k.
  assert (PB : 0 < 10 ^ B) by (apply Z.pow_pos_nonneg; lia).
  (* over the common power: [n / 10^(e-16)] and [k] *)
  set (U := 10 ^ (16 - e + B)) in *. set (W := 10 ^ (e - 16 + B)) in *.
  assert (PU : 0 < U) by (apply Z.pow_pos_nonneg; lia).
  assert (PW : 0 < W) by (apply Z.pow_pos_nonneg; lia).
  assert (UW : U * W = 10 ^ B * 10 ^ B).
  { subst U W. rewrite <- !Z.pow_add_r by lia. f_equal. lia. }
  assert (W16 : 10 ^ (e + B) = 10 ^ 16 * W).
  { subst W. rewrite <- Z.pow_add_r by lia. f_equal. lia. }
  assert (W17 : 10 ^ (e + 1 + B) = 10 ^ 17 * W).
  { subst W. rewrite <- Z.pow_add_r by lia. f_equal. lia. }
  rewrite W16 in X1. rewrite W17 in X2.
  (* 2 |n - k d W / 10^B| <= d W / 10^B *)
  assert (R2 : 2 * Z.abs (n * 10 ^ B - k * (d * W)) <= d * W).
  { apply Z.mul_le_mono_pos_l with (d1 * 10 ^ B).
    { apply Z.mul_pos_pos; assumption. }
    assert (E : d1 * 10 ^ B * (n * 10 ^ B - k * (d * W))
                = (n * n1 - k * (d * d1)) * (W * 10 ^ B)).
    { transitivity (n * d1 * (10 ^ B * 10 ^ B) - k * (d * d1) * (W * 10 ^ B)); [ring|].
      rewrite <- UW.
      transitivity (n * (U * d1) * W - k * (d * d1) * (W * 10 ^ B)); [ring|].
      rewrite <- S. ring. }
    transitivity (2 * Z.abs (d1 * 10 ^ B * (n * 10 ^ B - k * (d * W)))).
    { rewrite Z.abs_mul, (Z.abs_eq (d1 * 10 ^ B)); [lia|].
      apply Z.mul_nonneg_nonneg; lia. }
    rewrite E, Z.abs_mul, (Z.abs_eq (W * 10 ^ B)) by (apply Z.mul_nonneg_nonneg; lia).
    transitivity (2 * Z.abs (n * n1 - k * (d * d1)) * (W * 10 ^ B)); [lia|].
    transitivity (d * d1 * (W * 10 ^ B)); [|lia].
    apply Z.mul_le_mono_nonneg_r; [apply Z.mul_nonneg_nonneg; lia|exact R]. }
  assert (PdW : 0 < d * W) by (apply Z.mul_pos_pos; assumption).
  split.
  - change (10 ^ 16) with 10000000000000000 in *.
    change (10 ^ 17) with 100000000000000000 in *.
    revert R2 X1 X2. replace (10000000000000000 * W * d)
      with (10000000000000000 * (d * W)) by ring.
    replace (100000000000000000 * W * d) with (100000000000000000 * (d * W)) by ring.
    generalize (n * 10 ^ B) as x. generalize dependent (d * W). clear.
    intros t Ht x R X1 X2.
    assert (G1 : (9999999999999999) * t < k * t) by lia.
    assert (G2 : k * t < 100000000000000001 * t) by lia.
    apply Z.mul_lt_mono_pos_r in G1; [|exact Ht].
    apply Z.mul_lt_mono_pos_r in G2; [|exact Ht]. lia.
  - intros N z Hz Ek.
    set (B' := B + z).
    pose proof (scale_eq 10 N (e - 16 + z) B ltac:(lia) ltac:(lia) ltac:(lia)) as S'.
    pose proof (scale_pos 10 N (e - 16 + z) ltac:(lia)) as P'.
    destruct (scale 10 N (e - 16 + z)) as [n' d']. cbn [fst snd] in *.
    replace (e - 16 + z + B) with (z + (e - 16 + B)) in S' by lia.
    rewrite Z.pow_add_r in S' by lia. fold W in S'.
    assert (S2 : n' * 10 ^ B = k * W * d') by (rewrite S', Ek; ring).
    apply Z.mul_le_mono_pos_l with (10 ^ B); [exact PB|].
    transitivity (10 ^ 16 * (2 * Z.abs (n * 10 ^ B - k * (d * W))) * d').
    + assert (E : 10 ^ B * (n * d' - n' * d) = (n * 10 ^ B - k * (d * W)) * d').
      { transitivity (n * 10 ^ B * d' - n' * 10 ^ B * d); [ring|]. rewrite S2. ring. }
      transitivity (2 * 10 ^ 16 * Z.abs (10 ^ B * (n * d' - n' * d))).
      { rewrite Z.abs_mul, (Z.abs_eq (10 ^ B)) by lia. lia. }
      rewrite E, Z.abs_mul, (Z.abs_eq d') by lia. lia.
    + transitivity (10 ^ 16 * (d * W) * d').
      * apply Z.mul_le_mono_nonneg_r; [lia|].
        apply Z.mul_le_mono_nonneg_l; [lia|exact R2].
      * transitivity (n * 10 ^ B * d'); [|lia].
        apply Z.mul_le_mono_nonneg_r; [lia|].
        transitivity (10 ^ 16 * W * d); [lia|exact X1].
Qed.

Lemma scale_bounds M Q : canonical M Q ->
  let n := fst (scale 2 M Q) in let d := snd (scale 2 M Q) in
  0 < n /\ 0 < d /\ d <= n * 10 ^ 325 /\ n < 10 ^ 315 * d.
Proof.
  intros (HM & HQ & _). cbv zeta. unfold scale.
  assert (A : 2 ^ 1074 <= 10 ^ 325).
  { apply Z.leb_le. vm_compute. reflexivity. }
  assert (A' : 2 ^ 53 * 2 ^ 971 < 10 ^ 315).
  { apply Z.ltb_lt. vm_compute. reflexivity. }
  assert (A'' : 2 ^ 53 < 10 ^ 315).
  { apply Z.ltb_lt. vm_compute. reflexivity. }
  set (T := 10 ^ 325) in *. set (T' := 10 ^ 315) in *. clearbody T T'.
  destruct (0 <=? Q) eqn:E; cbn [fst snd].
  - assert (P : 0 < 2 ^ Q) by (apply Z.pow_pos_nonneg; lia).
    assert (P2 : 2 ^ Q <= 2 ^ 971) by (apply Z.pow_le_mono_r; lia).
    set (q := 2 ^ Q) in *. clearbody q.
    assert (0 < M * q) by (apply Z.mul_pos_pos; lia).
    assert (1 <= 2 ^ 1074) by (apply Z.leb_le; vm_compute; reflexivity).
    split; [lia|]. split; [lia|]. split.
    + transitivity (M * q * 1); [lia|]. apply Z.mul_le_mono_nonneg_l; lia.
    + rewrite Z.mul_1_r. eapply Z.le_lt_trans; [|exact A'].
      apply Z.mul_le_mono_nonneg; lia.
  - assert (P : 0 < 2 ^ (- Q)) by (apply Z.pow_pos_nonneg; lia).
    assert (P2 : 2 ^ (- Q) <= 2 ^ 1074) by (apply Z.pow_le_mono_r; lia).
    set (q := 2 ^ (- Q)) in *. clearbody q.
    split; [lia|]. split; [lia|]. split.
    + transitivity (1 * T); [lia|]. apply Z.mul_le_mono_nonneg_r; lia.
    + apply Z.lt_le_trans with (T' * 1); [lia|]. apply Z.mul_le_mono_nonneg_l; lia.
Qed.

Lemma dec_exp_of M Q : canonical M Q ->
  let n := fst (scale 2 M Q) in let d := snd (scale 2 M Q) in
  dec_exp_ok n d (dec_exp n d) = true /\ -400 <= dec_exp n d <= 399.
Proof.
  intros H n d. destruct (scale_bounds M Q H) as (Hn & Hd & L & U).
  fold n d in Hn, Hd, L, U.
  assert (X : forall B, 400 <= B ->
    10 ^ (-325 + B) * d <= n * 10 ^ B < 10 ^ (315 + B) * d).
  { intros B HB. rewrite (Z.add_comm 315 B), (Z.pow_add_r 10 B 315) by lia.
    assert (E : 10 ^ B = 10 ^ (-325 + B) * 10 ^ 325).
    { rewrite <- Z.pow_add_r by lia. f_equal. lia. }
    assert (P1 : 0 < 10 ^ (-325 + B)) by (apply Z.pow_pos_nonneg; lia).
    assert (P2 : 0 < 10 ^ B) by (apply Z.pow_pos_nonneg; lia).
    set (T := 10 ^ 325) in *. set (T' := 10 ^ 315) in *. clearbody T T'.
    split.
    - rewrite E. transitivity (10 ^ (-325 + B) * (n * T)); [|lia].
      apply Z.mul_le_mono_nonneg_l; lia.
    - apply Z.lt_le_trans with (10 ^ B * (T' * d)); [|lia].
      rewrite (Z.mul_comm n). apply Z.mul_lt_mono_pos_l; lia. }
  pose proof (dec_exp_find n d 400 Hn Hd ltac:(lia) (X 400 ltac:(lia))) as Ok.
  split; [exact Ok|]. set (e := dec_exp n d) in *. clearbody e. clear L U.
  set (B := Z.max 400 (- e)).
  pose proof (dec_exp_ok_spec n d e B ltac:(lia) ltac:(lia) Hn Hd Ok) as [E1 E2].
  pose proof (X B ltac:(lia)) as [X1 X2]. clear X.
  assert (G1 : 10 ^ (e + B) * d < 10 ^ (315 + B) * d)
    by (eapply Z.le_lt_trans; eassumption).
  apply Z.mul_lt_mono_pos_r in G1; [|exact Hd].
  apply Z.pow_lt_mono_r_iff in G1; [|lia|lia].
  assert (G2 : 10 ^ (-325 + B) * d < 10 ^ (e + 1 + B) * d)
    by (eapply Z.le_lt_trans; eassumption).
  apply Z.mul_lt_mono_pos_r in G2; [|exact Hd].
  apply Z.pow_lt_mono_r_iff in G2; [|lia|lia]. lia.
Qed.

Lemma dbl_round_close M Q n' d' : canonical M Q -> 0 < n' -> 0 < d' ->
  let n := fst (scale 2 M Q) in let d := snd (scale 2 M Q) in
  2 * 10 ^ 16 * Z.abs (n * d' - n' * d) <= n * d' ->
  dbl_round n' d' = (Q + 1074) * 2 ^ 52 + M.
Proof.
  intros Hc Hn' Hd' n d H. destruct (scale_bounds M Q Hc) as (Hn & Hd & _).
  fold n in Hn. fold d in Hd. pose proof Hc as (HM & HQ & _).
  set (B := Z.max 1200 (- bin_exp n' d')).
  apply (dbl_round_near n' d' M Q B); try assumption; try lia.
  pose proof (scale_eq 2 M Q B ltac:(lia) ltac:(lia) ltac:(lia)) as S.
  fold n d in S.
  assert (PB : 0 < 2 ^ B) by (apply Z.pow_pos_nonneg; lia).
  apply Z.mul_le_mono_pos_l with d; [exact Hd|].
  assert (E : d * (n' * 2 ^ B - M * (2 ^ (Q + B) * d'))
              = - (2 ^ B * (n * d' - n' * d))).
  { transitivity (n' * 2 ^ B * d - M * 2 ^ (Q + B) * d * d'); [ring|].
    rewrite <- S. ring. }
  transitivity (2 * 10 ^ 16 * Z.abs (d * (n' * 2 ^ B - M * (2 ^ (Q + B) * d')))).
  { rewrite (Z.abs_mul d), (Z.abs_eq d) by lia. lia. }
  rewrite E, Z.abs_opp, Z.abs_mul, (Z.abs_eq (2 ^ B)) by lia.
  transitivity (2 ^ B * (n * d')).
  - transitivity (2 ^ B * (2 * 10 ^ 16 * Z.abs (n * d' - n' * d))); [lia|].
    apply Z.mul_le_mono_nonneg_l; lia.
  - transitivity (n * 2 ^ B * d'); [lia|]. rewrite S. lia.
Qed.

(** The text of a positive finite double, and what [float] makes of it. *)
Lemma dbl_text_pos a : 0 < a < DBL_INF ->
  exists k e, 10 ^ 16 <= k < 10 ^ 17 /\ -400 <= e <= 400
    /\ dbl_text a = g_layout k e
    /\ dbl_text (a + DBL_SIGN) = 45 :: g_layout k e
    /\ forall N z, 0 <= z -> k = N * 10 ^ z ->
       (let (n', d') := scale 10 N (e - 16 + z) in dbl_round n' d') = a.
Proof.
  intros Ha. destruct (dbl_mant_spec a Ha) as [Hc Hv].
  destruct (dbl_mant a) as [M Q] eqn:Em. cbn [fst snd] in *.
  destruct (scale_bounds M Q Hc) as (Hn & Hd & _).
  pose proof (dec_exp_of M Q Hc) as [Ok He].
  set (k0 := rne (fst (scale 2 M Q)
                  * fst (scale 10 1 (16 - dec_exp (fst (scale 2 M Q)) (snd (scale 2 M Q)))))
                 (snd (scale 2 M Q)
                  * snd (scale 10 1 (16 - dec_exp (fst (scale 2 M Q)) (snd (scale 2 M Q)))))).
  set (e0 := dec_exp (fst (scale 2 M Q)) (snd (scale 2 M Q))) in *.
  pose proof (dec_close (fst (scale 2 M Q)) (snd (scale 2 M Q)) e0 Hn Hd Ok) as [K Cl].
  fold k0 in K, Cl.
  assert (Round : forall N z, 0 <= z -> k0 = N * 10 ^ z ->
     (let (n', d') := scale 10 N (e0 - 16 + z) in dbl_round n' d') = a).
  { intros N z Hz Ek. specialize (Cl N z Hz Ek).
    assert (HN : 0 < N).
    { destruct (Z.le_gt_cases N 0); [exfalso|lia].
      assert (0 < 10 ^ z) by (apply Z.pow_pos_nonneg; lia).
      assert (N * 10 ^ z <= 0) by (apply Z.mul_nonpos_nonneg; lia). lia. }
    pose proof (scale_num_pos 10 N (e0 - 16 + z) ltac:(lia) HN) as P1.
    pose proof (scale_pos 10 N (e0 - 16 + z) ltac:(lia)) as P2.
    destruct (scale 10 N (e0 - 16 + z)) as [n' d']. cbn [fst snd] in *.
    rewrite (dbl_round_close M Q n' d' Hc P1 P2 Cl). exact Hv. }
  (* unfolding dbl_text *)
  assert (T : forall b sg, b mod DBL_SIGN = a ->
    (if DBL_SIGN <=? b then [45] else []) = sg ->
    dbl_text b = sg ++ (if k0 =? 10 ^ 17 then g_layout (10 ^ 16) (e0 + 1)
                        else g_layout k0 e0)).
  { intros b sg Hb Hs. unfold dbl_text. rewrite Hb, Hs.
    destruct (DBL_INF <? a) eqn:E1; [lia|]. destruct (a =? DBL_INF) eqn:E2; [lia|].
    destruct (a =? 0) eqn:E3; [lia|]. rewrite Em.
    subst k0 e0. destruct (scale 2 M Q) as [n d]. cbn [fst snd].
    destruct (scale 10 1 (16 - dec_exp n d)) as [n1 d1]. cbn [fst snd].
    reflexivity. }
  assert (Hs : a < DBL_SIGN) by (unfold DBL_INF, DBL_SIGN in *; lia).
  assert (T1 := T a []). assert (T2 := T (a + DBL_SIGN) [45]).
  rewrite Z.mod_small in T1 by lia. specialize (T1 eq_refl).
  destruct (DBL_SIGN <=? a) eqn:E1; [lia|]. specialize (T1 eq_refl).
  assert (Em2 : (a + DBL_SIGN) mod DBL_SIGN = a).
  { replace (a + DBL_SIGN) with (a + 1 * DBL_SIGN) by lia.
    rewrite Z.mod_add by discriminate. apply Z.mod_small. lia. }
  specialize (T2 Em2).
  destruct (DBL_SIGN <=? a + DBL_SIGN) eqn:E2; [|lia]. specialize (T2 eq_refl).
  rewrite T1, T2. cbn [app]. clear T T1 T2.
  destruct (k0 =? 10 ^ 17) eqn:Ek.
  - apply Z.eqb_eq in Ek. exists (10 ^ 16), (e0 + 1).
    split; [split; [lia|reflexivity]|]. split; [lia|].
    split; [reflexivity|]. split; [reflexivity|].
    intros N z Hz EN. replace (e0 + 1 - 16 + z) with (e0 - 16 + (z + 1)) by lia.
    apply Round; [lia|]. rewrite Z.pow_add_r, Z.mul_assoc, <- EN by lia. exact Ek.
  - exists k0, e0. split; [apply Z.eqb_neq in Ek; lia|]. split; [lia|].
    split; [reflexivity|]. split; [reflexivity|exact Round].
Qed.

Lemma list_eqb_head a b x y : x <> y -> list_eqb (x :: a) (y :: b) = false.
Proof.
  intros H. unfold list_eqb. destruct (list_eq_dec _ _ _); congruence.
Qed.

(** [float] of a text starting with a digit. *)
Lemma py_float_literal l n e : dec_literal l = Some (n, e) ->
  match l with c :: _ => is_digit c = true | [] => False end ->
  let v := let (a, b) := scale 10 n e in dbl_round a b in
  py_float l = Some v /\ py_float (45 :: l) = Some (v + DBL_SIGN).
Proof.
  intros E H. destruct l as [|c l]; [contradiction|]. cbv zeta. unfold py_float.
  unfold is_digit in H.
  assert (Hl : lower c = c).
  { unfold lower. destruct ((65 <=? c) && (c <=? 90)) eqn:G; lia. }
  set (l' := map lower (c :: l)).
  assert (El : exists r, l' = c :: r) by (exists (map lower l); subst l'; cbn [map]; rewrite Hl; reflexivity).
  destruct El as [r El]. rewrite El, !list_eqb_head by lia. cbn [orb]. rewrite E.
  destruct (scale 10 n e) as [a b].
  split; [|reflexivity].
  destruct c as [|p|p]; try lia.
  do 6 (destruct p as [p|p|]; try reflexivity; try lia).
Qed.

Theorem py_float_text b : 0 <= b < 2 ^ 64 -> finite b = true ->
  py_float (dbl_text b) = Some b.
Proof.
  intros Hb Hf. unfold finite in Hf. apply Z.ltb_lt in Hf.
  pose proof (Z.mod_pos_bound b DBL_SIGN eq_refl) as Hm.
  pose proof (Z.div_mod b DBL_SIGN ltac:(discriminate)) as Ed.
  assert (Hq : b / DBL_SIGN = 0 \/ b / DBL_SIGN = 1).
  { assert (0 <= b / DBL_SIGN) by (apply Z.div_pos; [lia|reflexivity]).
    assert (b / DBL_SIGN < 2) by (apply Z.div_lt_upper_bound; [reflexivity|exact (proj2 Hb)]).
    lia. }
  set (a := b mod DBL_SIGN) in *. clearbody a.
  assert (Eb : b = a \/ b = a + DBL_SIGN) by (destruct Hq as [Hq|Hq]; rewrite Hq in Ed; lia).
  clear Ed Hq. destruct (Z.eq_dec a 0) as [->|Ha].
  - destruct Eb as [->| ->]; reflexivity.
  - destruct (dbl_text_pos a) as (k & e & Hk & He & T1 & T2 & R); [lia|].
    destruct (g_layout_spec k e Hk) as (N & z & DL & Hz & EN).
    destruct (g_layout_chars k e Hk He) as (_ & Hd & _).
    destruct (py_float_literal _ _ _ DL Hd) as [F1 F2].
    rewrite (R N z Hz EN) in F1, F2.
    destruct Eb as [->| ->]; [rewrite T1|rewrite T2]; assumption.
Qed.

(** Only number characters, between 1 and 24 of them. *)
Lemma dbl_text_chars b : 0 <= b < 2 ^ 64 -> finite b = true ->
  forallb num_char (dbl_text b) = true /\ dbl_text b <> []
  /\ (length (dbl_text b) <= 24)%nat.
Proof.
  intros Hb Hf. unfold finite in Hf. apply Z.ltb_lt in Hf.
  pose proof (Z.mod_pos_bound b DBL_SIGN eq_refl) as Hm.
  pose proof (Z.div_mod b DBL_SIGN ltac:(discriminate)) as Ed.
  assert (Hq : b / DBL_SIGN = 0 \/ b / DBL_SIGN = 1).
  { assert (0 <= b / DBL_SIGN) by (apply Z.div_pos; [lia|reflexivity]).
    assert (b / DBL_SIGN < 2) by (apply Z.div_lt_upper_bound; [reflexivity|exact (proj2 Hb)]).
    lia. }
  set (a := b mod DBL_SIGN) in *. clearbody a.
  assert (Eb : b = a \/ b = a + DBL_SIGN) by (destruct Hq as [Hq|Hq]; rewrite Hq in Ed; lia).
  clear Ed Hq. destruct (Z.eq_dec a 0) as [->|Ha].
  - destruct Eb as [->| ->]; vm_compute; split; [reflexivity| |reflexivity|];
      split; try discriminate; lia.
  - destruct (dbl_text_pos a) as (k & e & Hk & He & T1 & T2 & R); [lia|].
    destruct (g_layout_chars k e Hk He) as (C1 & Hd & L).
    destruct Eb as [->| ->]; [rewrite T1|rewrite T2].
    + split; [exact C1|]. split; [|lia]. intros C. rewrite C in Hd. exact Hd.
    + cbn [forallb length]. rewrite C1. split; [reflexivity|]. split; [discriminate|lia].
Qed.

(** * Base64 *)

Lemma b64_val_char v : 0 <= v < 64 -> b64_val (b64_char v) = Some v.
Proof.
  intros H. unfold b64_char.
  destruct (v <? 26) eqn:E1; [|destruct (v <? 52) eqn:E2;
    [|destruct (v <? 62) eqn:E3; [|destruct (v =? 62) eqn:E4]]]; unfold b64_val;
  repeat match goal with
         | |- context [if ?b then _ else _] => destruct b eqn:?; try lia
         end; f_equal; lia.
Qed.

Lemma b64_char_range v : 0 <= v < 64 ->
  43 <= b64_char v <= 122 /\ b64_char v <> 61 /\ b64_char v <> 92.
Proof.
  intros H. unfold b64_char.
  repeat match goal with
         | |- context [if ?b then _ else _] => destruct b eqn:?; try lia
         end.
Qed.

Lemma list_ind3 {A} (P : list A -> Prop) : P [] -> (forall a, P [a]) ->
  (forall a b, P [a; b]) -> (forall a b c r, P r -> P (a :: b :: c :: r)) ->
  forall l, P l.
Proof.
  intros H0 H1 H2 H3.
  assert (G : forall n l, (length l <= n)%nat -> P l).
  { induction n as [|n IH]; intros [|a [|b [|c r]]] Hl; auto;
      cbn [length] in Hl; try lia.
    apply H3, IH. lia. }
  intros l. apply (G (length l)). lia.
Qed.

Ltac dm := Z.to_euclidean_division_equations; lia.

Lemma z2b_b2z_eq b z : z = b2z b -> z2b z = b.
Proof. intros ->. apply z2b_b2z. Qed.

Lemma b64_loop_char r v pos left pads : 0 <= v < 64 ->
  b64_loop (b64_char v :: r) pos left pads =
  if pos =? 0 then b64_loop r 1 v 0
  else
    let '(o, p, lf) :=
      if pos =? 1 then (left * 4 + v / 16, 2, v mod 16)
      else if pos =? 2 then (left * 16 + v / 4, 3, v mod 4)
      else (left * 64 + v, 0, 0) in
    option_map (cons (z2b o)) (b64_loop r p lf 0).
Proof.
  intros H. cbn [b64_loop]. destruct (b64_char_range v H) as (_ & H61 & _).
  destruct (b64_char v =? 61) eqn:E; [lia|]. rewrite (b64_val_char v H). reflexivity.
Qed.

Lemma b64_loop_encode l : b64_loop (b64encode l) 0 0 0 = Some l.
Proof.
  induction l as [|a|a b|a b c r IH] using list_ind3; cbn [b64encode].
  - reflexivity.
  - pose proof (b2z_range a).
    rewrite b64_loop_char by dm. cbn [Z.eqb Pos.eqb].
    rewrite b64_loop_char by dm. cbn [Z.eqb Pos.eqb].
    cbn [b64_loop]. cbn. f_equal. f_equal. apply z2b_b2z_eq. dm.
  - pose proof (b2z_range a). pose proof (b2z_range b).
    rewrite b64_loop_char by dm. cbn [Z.eqb Pos.eqb].
    rewrite b64_loop_char by dm. cbn [Z.eqb Pos.eqb].
    rewrite b64_loop_char by dm. cbn [Z.eqb Pos.eqb].
    change (b64_loop [61] 3 (b2z b mod 16 * 4 mod 4) 0) with (Some (@nil byte)).
    cbn [option_map].
    f_equal. f_equal; [apply z2b_b2z_eq; dm|]. f_equal. apply z2b_b2z_eq; dm.
  - pose proof (b2z_range a). pose proof (b2z_range b). pose proof (b2z_range c).
    rewrite b64_loop_char by dm. cbn [Z.eqb Pos.eqb].
    rewrite b64_loop_char by dm. cbn [Z.eqb Pos.eqb].
    rewrite b64_loop_char by dm. cbn [Z.eqb Pos.eqb].
    rewrite b64_loop_char by dm. cbn [Z.eqb Pos.eqb].
    rewrite IH. cbn [option_map].
    f_equal. f_equal; [apply z2b_b2z_eq; dm|].
    f_equal; [apply z2b_b2z_eq; dm|]. f_equal. apply z2b_b2z_eq; dm.
Qed.

(** Characters a text may consist of to be read back as it is written. *)
Definition plain_char (c : Z) : bool :=
  (32 <=? c) && (c <? 127) && negb (c =? 34) && negb (c =? 92).

Lemma b64_char_plain v : 0 <= v < 64 -> plain_char (b64_char v) = true.
Proof. intros H. pose proof (b64_char_range v H). unfold plain_char. lia. Qed.

Lemma b64encode_plain l : forallb plain_char (b64encode l) = true.
Proof.
  induction l as [|a|a b|a b c r IH] using list_ind3; cbn [b64encode forallb].
  - reflexivity.
  - pose proof (b2z_range a). rewrite !b64_char_plain by dm. reflexivity.
  - pose proof (b2z_range a). pose proof (b2z_range b).
    rewrite !b64_char_plain by dm. reflexivity.
  - pose proof (b2z_range a). pose proof (b2z_range b). pose proof (b2z_range c).
    rewrite !b64_char_plain, IH by dm. reflexivity.
Qed.

Lemma b64encode_length l :
  Z.of_nat (length (b64encode l)) = 4 * ((Z.of_nat (length l) + 2) / 3).
Proof.
  induction l as [|a|a b|a b c r IH] using list_ind3; cbn [b64encode length];
    try reflexivity. rewrite !Nat2Z.inj_succ, IH. dm.
Qed.

Theorem b64decode_encode l : b64decode (b64encode l) = Some l.
Proof.
  unfold b64decode.
  assert (H : forallb (fun c => c <? 128) (b64encode l) = true).
  { apply forallb_forall. intros c Hc. pose proof (b64encode_plain l) as P.
    rewrite forallb_forall in P. specialize (P c Hc). unfold plain_char in P. lia. }
  rewrite H. apply b64_loop_encode.
Qed.

(** * UUIDs *)

Lemma hex_digit_char v : 0 <= v < 16 -> hex_digit (hex_char v) = Some v.
Proof.
  intros H. unfold hex_char.
  destruct (v <? 10) eqn:E; unfold hex_digit, is_digit;
  repeat match goal with
         | |- context [if ?b then _ else _] => destruct b eqn:?; try lia
         end; f_equal; lia.
Qed.

Lemma hex_char_range v : 0 <= v < 16 ->
  48 <= hex_char v <= 102 /\ hex_char v <> 92.
Proof. intros H. unfold hex_char. destruct (v <? 10) eqn:E; lia. Qed.

Lemma hex_bytes_text l : hex_bytes (hex_text l) = Some l.
Proof.
  induction l as [|b l IH]; [reflexivity|]. pose proof (b2z_range b).
  change (hex_text (b :: l)) with
    (hex_char (b2z b / 16) :: hex_char (b2z b mod 16) :: hex_text l).
  cbn [hex_bytes]. rewrite !hex_digit_char, IH by dm. f_equal. f_equal.
  apply z2b_b2z_eq. dm.
Qed.

Lemma hex_text_length l : length (hex_text l) = (2 * length l)%nat.
Proof.
  induction l as [|b l IH]; [reflexivity|].
  change (hex_text (b :: l)) with
    (hex_char (b2z b / 16) :: hex_char (b2z b mod 16) :: hex_text l).
  cbn [length]. lia.
Qed.

Lemma hex_text_chars l c : In c (hex_text l) ->
  48 <= c <= 102 /\ c <> 92.
Proof.
  unfold hex_text. intros H. apply in_flat_map in H as (b & _ & H).
  pose proof (b2z_range b).
  destruct H as [<-|[<-|[]]]; apply hex_char_range; dm.
Qed.

Lemma filter_hex l : (forall c, In c l -> c <> 45) ->
  filter (fun c => negb (c =? 45)) l = l.
Proof.
  induction l as [|c l IH]; intros H; [reflexivity|]. cbn [filter].
  pose proof (H c (or_introl eq_refl)). destruct (c =? 45) eqn:E; [lia|].
  cbn [negb]. f_equal. apply IH. intros d Hd. apply H. right. exact Hd.
Qed.

Theorem py_uuid_text l : length l = 16%nat -> py_uuid (uuid_text l) = Some l.
Proof.
  intros Hl. unfold py_uuid, uuid_text. set (h := hex_text l).
  assert (Hh : length h = 32%nat) by (subst h; rewrite hex_text_length; lia).
  assert (Hc : forall c, In c h -> c <> 45).
  { intros c Hc. apply hex_text_chars in Hc. lia. }
  assert (F : forall a b, (forall c, In c (firstn a (skipn b h)) -> c <> 45)).
  { intros a b c H. apply Hc. rewrite <- (firstn_skipn b h). apply in_or_app. right.
    rewrite <- (firstn_skipn a (skipn b h)). apply in_or_app. left. exact H. }
  assert (E : filter (fun c => negb (c =? 45))
    (firstn 8 h ++ 45 :: firstn 4 (skipn 8 h) ++ 45 :: firstn 4 (skipn 12 h)
     ++ 45 :: firstn 4 (skipn 16 h) ++ 45 :: skipn 20 h) = h).
  { rewrite !filter_app. cbn [filter Z.eqb Pos.eqb negb].
    rewrite !filter_app. cbn [filter Z.eqb Pos.eqb negb].
    rewrite !filter_app. cbn [filter Z.eqb Pos.eqb negb].
    rewrite !filter_app. cbn [filter Z.eqb Pos.eqb negb].
    pose proof (F 8%nat 0%nat) as F0. cbn [skipn] in F0.
    rewrite !filter_hex; try apply F; try exact F0.
    - clear. do 20 (destruct h as [|? h]; [reflexivity|]). reflexivity.
    - intros c H. apply Hc. rewrite <- (firstn_skipn 20 h). apply in_or_app. auto. }
  rewrite E, Hh. apply hex_bytes_text.
Qed.

Lemma uuid_text_plain l : forallb plain_char (uuid_text l) = true.
Proof.
  apply forallb_forall. intros c Hc. unfold uuid_text in Hc.
  assert (Hh : forall c, In c (hex_text l) -> plain_char c = true).
  { intros d Hd. apply hex_text_chars in Hd. unfold plain_char. lia. }
  set (h := hex_text l) in *.
  assert (F : forall a b, (forall c, In c (firstn a (skipn b h)) -> plain_char c = true)).
  { intros a b d H. apply Hh. rewrite <- (firstn_skipn b h). apply in_or_app. right.
    rewrite <- (firstn_skipn a (skipn b h)). apply in_or_app. left. exact H. }
  pose proof (F 8%nat 0%nat) as F0. cbn [skipn] in F0.
  assert (F20 : forall c, In c (skipn 20 h) -> plain_char c = true).
  { intros d H. apply Hh. rewrite <- (firstn_skipn 20 h). apply in_or_app. auto. }
  repeat (apply in_app_or in Hc as [Hc|Hc]; [eauto|];
          destruct Hc as [<-|Hc]; [reflexivity|]).
  eauto.
Qed.

Lemma uuid_text_length l : length l = 16%nat -> length (uuid_text l) = 36%nat.
Proof.
  intros Hl. unfold uuid_text. pose proof (hex_text_length l) as Hh. rewrite Hl in Hh.
  rewrite !app_length. cbn [length]. rewrite !app_length. cbn [length].
  rewrite !app_length. cbn [length]. rewrite !app_length. cbn [length].
  rewrite !firstn_length, !skipn_length, Hh. reflexivity.
Qed.
