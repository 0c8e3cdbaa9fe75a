(** The double that the JSON reader makes of a decimal number is the nearest one. *)
From Coq Require Import ZArith List Bool Lia.
From Coq Require Import ZifyBool.
From Verif Require Import Base Bytes JsonText JsonTextFacts.
Open Scope Z_scope.

(** The value of the positive double [a], times [2^1074]. *)
Definition dval (a : Z) : Z := let (m, q) := dbl_mant a in m * 2 ^ (q + 1074).

(** The distance to the next double, times [2^1074]. *)
Definition gap (a : Z) : Z := 2 ^ Z.max (a / 2 ^ 52 - 1) 0.

Local Notation K := 4503599627370496.

Lemma dval_eq a : 0 <= a ->
  dval a = if a <? K then a else (K + a mod K) * 2 ^ (a / K - 1).
Proof.
  intros Ha. unfold dval, dbl_mant. change (2 ^ 52) with K.
  destruct (a <? K) eqn:E; [change (-1074 + 1074) with 0; rewrite Z.mul_1_r; reflexivity|].
  do 2 f_equal. lia.
Qed.

Lemma dval_step a : 0 <= a -> dval (a + 1) = dval a + gap a.
Proof.
  intros Ha. rewrite !dval_eq by lia. unfold gap. change (2 ^ 52) with K.
  pose proof (Z.div_mod a K ltac:(lia)) as Ea.
  pose proof (Z.mod_pos_bound a K ltac:(lia)) as Ba.
  assert (Hq : 0 <= a / K) by (apply Z.div_pos; lia).
  set (q := a / K) in *. set (r := a mod K) in *.
  destruct (Z.eq_dec (r + 1) K) as [Er|Er].
  - assert (E1 : (a + 1) / K = q + 1) by (symmetry; apply (Z.div_unique _ _ _ 0); lia).
    assert (E2 : (a + 1) mod K = 0) by (symmetry; apply (Z.mod_unique _ _ (q + 1)); lia).
    rewrite E1, E2.
    destruct (a <? K) eqn:C1; destruct (a + 1 <? K) eqn:C2; try lia.
    + assert (q = 0) by lia. replace (Z.max (q - 1) 0) with 0 by lia.
      replace (q + 1 - 1) with 0 by lia. change (2 ^ 0) with 1. lia.
    + assert (1 <= q) by lia. rewrite Z.max_l by lia.
      replace (q + 1 - 1) with (Z.succ (q - 1)) by lia. rewrite Z.pow_succ_r by lia. nia.
  - assert (E1 : (a + 1) / K = q) by (symmetry; apply (Z.div_unique _ _ _ (r + 1)); lia).
    assert (E2 : (a + 1) mod K = r + 1) by (symmetry; apply (Z.mod_unique _ _ q); lia).
    rewrite E1, E2.
    destruct (a <? K) eqn:C1; destruct (a + 1 <? K) eqn:C2; try lia.
    + assert (q = 0) by lia. replace (Z.max (q - 1) 0) with 0 by lia.
      change (2 ^ 0) with 1. lia.
    + assert (1 <= q) by lia. rewrite Z.max_l by lia. nia.
Qed.

Lemma gap_pos a : 0 < gap a.
Proof. unfold gap. apply Z.pow_pos_nonneg; lia. Qed.

Lemma dval_up a b : 0 <= a -> a < b -> dval a + gap a <= dval b.
Proof.
  intros Ha Hb. replace b with (a + 1 + Z.of_nat (Z.to_nat (b - a - 1))) by lia.
  induction (Z.to_nat (b - a - 1)) as [|k IH].
  - replace (a + 1 + Z.of_nat 0) with (a + 1) by lia. rewrite dval_step by lia. lia.
  - replace (a + 1 + Z.of_nat (S k)) with (a + 1 + Z.of_nat k + 1) by lia.
    rewrite (dval_step (a + 1 + Z.of_nat k)) by lia.
    pose proof (gap_pos (a + 1 + Z.of_nat k)). lia.
Qed.

Lemma dval_down a b : 0 <= b -> b < a -> dval b <= dval a - gap (a - 1).
Proof.
  intros Hb Ha. pose proof (dval_step (a - 1) ltac:(lia)) as E.
  replace (a - 1 + 1) with a in E by lia. rewrite E.
  destruct (Z.eq_dec b (a - 1)) as [->|Hne]; [lia|].
  pose proof (dval_up b (a - 1) Hb ltac:(lia)). pose proof (gap_pos b). lia.
Qed.

Lemma rne_tie n d : 0 < d -> 2 * Z.abs (n - rne n d * d) = d -> Z.even (rne n d) = true.
Proof.
  intros Hd. unfold rne. pose proof (Z.div_mod n d ltac:(lia)) as E.
  pose proof (Z.mod_pos_bound n d Hd).
  destruct (2 * (n mod d) <? d) eqn:E1; [intros; nia|].
  destruct (d <? 2 * (n mod d)) eqn:E2; [intros; nia|].
  destruct (Z.even (n / d)) eqn:E3; intros _; [exact E3|].
  rewrite Z.even_add, E3. reflexivity.
Qed.

(** The mantissa and unit the reader works with. *)
Lemma dbl_round_unit n d : 0 < n -> 0 < d -> dbl_round n d < DBL_INF ->
  exists m q, 0 <= q /\ dbl_round n d = q * K + m
    /\ dval (dbl_round n d) = m * 2 ^ q
    /\ 0 <= m <= 2 * K
    /\ 2 * Z.abs (n * 2 ^ 1074 - d * (m * 2 ^ q)) <= d * 2 ^ q
    /\ (2 * Z.abs (n * 2 ^ 1074 - d * (m * 2 ^ q)) = d * 2 ^ q -> Z.even m = true)
    /\ (q = 0 \/ K <= m)
    /\ (q = 0 \/ d * (K * 2 ^ q) <= n * 2 ^ 1074).
Proof.
  intros Hn Hd. unfold dbl_round. destruct (n =? 0) eqn:En; [lia|].
  set (e := bin_exp n d). set (Q := Z.max (e - 52) (-1074)).
  destruct (scale 2 1 (- Q)) as [a b] eqn:Es.
  assert (Ha : fst (scale 2 1 (- Q)) = a) by (rewrite Es; reflexivity).
  assert (Hb : snd (scale 2 1 (- Q)) = b) by (rewrite Es; reflexivity).
  set (B := 1074 + Z.abs Q).
  assert (Ea : a * 2 ^ B = 2 ^ (- Q + B) * b).
  { rewrite <- Ha, <- Hb, (scale_eq 2 1 (- Q) B) by lia. ring. }
  assert (Hb0 : 0 < b) by (rewrite <- Hb; apply scale_pos; lia).
  assert (Ha0 : 0 < a) by (rewrite <- Ha; apply scale_num_pos; lia).
  set (q := Q + 1074). assert (Hq : 0 <= q) by lia.
  (* a / b = 2^1074 / 2^q *)
  assert (Eab : a * 2 ^ q = 2 ^ 1074 * b).
  { apply (Z.mul_reg_r _ _ (2 ^ B)); [apply Z.pow_nonzero; lia|].
    replace (a * 2 ^ q * 2 ^ B) with (a * 2 ^ B * 2 ^ q) by ring. rewrite Ea.
    replace (2 ^ (- Q + B) * b * 2 ^ q) with (2 ^ (- Q + B) * 2 ^ q * b) by ring.
    rewrite <- Z.pow_add_r by lia.
    replace (2 ^ 1074 * b * 2 ^ B) with (2 ^ 1074 * 2 ^ B * b) by ring.
    rewrite <- Z.pow_add_r by lia. do 2 f_equal. lia. }
  pose proof (bin_exp_spec n d (1074 + Z.abs e) Hn Hd ltac:(lia) ltac:(fold e; lia)) as [L U].
  fold e in L, U. set (C := 1074 + Z.abs e) in *.
  assert (P1 : 2 ^ (e + 1 + C) * 2 ^ 1074 <= 2 * K * 2 ^ q * 2 ^ C).
  { change (2 * K) with (2 ^ 53). rewrite <- !Z.pow_add_r by lia. apply Z.pow_le_mono_r; lia. }
  assert (P2 : q = 0 \/ K * 2 ^ q * 2 ^ C = 2 ^ (e + C) * 2 ^ 1074).
  { destruct (Z.eq_dec q 0) as [?|Hq0]; [left; assumption|right].
    change K with (2 ^ 52). rewrite <- !Z.pow_add_r by lia. f_equal. lia. }
  assert (HC : 0 < 2 ^ C) by (apply Z.pow_pos_nonneg; lia).
  assert (Hp : 0 < 2 ^ q) by (apply Z.pow_pos_nonneg; lia).
  assert (HP : 0 < 2 ^ 1074) by (apply Z.pow_pos_nonneg; lia).
  change (2 ^ 52) with K. set (m := rne (n * a) (d * b)). intros Hlt.
  assert (E : Z.min DBL_INF (q * K + m) = q * K + m) by (fold q in Hlt; lia).
  fold q. rewrite E in *. clear Hlt E.
  revert Eab P1 P2 HP. generalize (2 ^ 1074). intros P Eab P1 P2 HP.
  revert L U P1 P2 HC. generalize (2 ^ C), (2 ^ (e + 1 + C)), (2 ^ (e + C)).
  intros c c1 c0 L U P1 P2 HC.
  assert (Hdb : 0 < d * b) by nia.
  pose proof (rne_spec (n * a) (d * b) Hdb) as R. fold m in R.
  assert (Htie : 2 * Z.abs (n * a - m * (d * b)) = d * b -> Z.even m = true)
    by apply (rne_tie (n * a) (d * b) Hdb).
  clearbody m. clear Ea Ha Hb Es.
  assert (Hval : q = 0 \/ K <= m -> 0 <= m <= 2 * K -> dval (q * K + m) = m * 2 ^ q).
  { intros Hm1 Hm. rewrite dval_eq by lia. destruct (q * K + m <? K) eqn:C1.
    - assert (Hz : q = 0) by lia. rewrite Hz. change (2 ^ 0) with 1. lia.
    - destruct (Z.eq_dec m (2 * K)) as [->|Hm2].
      + replace ((q * K + 2 * K) mod K) with 0 by (apply (Z.mod_unique _ _ (q + 2)); lia).
        replace ((q * K + 2 * K) / K) with (q + 2) by (apply (Z.div_unique _ _ _ 0); lia).
        replace (q + 2 - 1) with (Z.succ q) by lia. rewrite Z.pow_succ_r by lia. ring.
      + assert (K <= m) by lia.
        replace ((q * K + m) mod K) with (m - K) by (apply (Z.mod_unique _ _ (q + 1)); lia).
        replace ((q * K + m) / K) with (q + 1) by (apply (Z.div_unique _ _ _ (m - K)); lia).
        replace (q + 1 - 1) with q by lia. ring. }
  exists m, q. split; [exact Hq|]. split; [reflexivity|].
  clearbody q. revert Eab P1 P2 Hp Hval. generalize (2 ^ q). intros u Eab P1 P2 Hp Hval.
  assert (Hscale : Z.abs (n * a - m * (d * b)) * u = Z.abs (n * P - d * (m * u)) * b).
  { rewrite <- (Z.abs_eq u) at 1 by lia. rewrite <- (Z.abs_eq b) at 2 by lia.
    rewrite <- !Z.abs_mul. f_equal.
    replace ((n * a - m * (d * b)) * u) with (n * (a * u) - m * (d * b) * u) by ring.
    rewrite Eab. ring. }
  assert (Hdu : 0 < d * u) by nia.
  assert (Hup : n * P < d * (2 * K * u)).
  { apply (Z.mul_lt_mono_pos_r c); [exact HC|].
    apply Z.lt_le_trans with (c1 * d * P).
    - replace (n * P * c) with (n * c * P) by ring. apply Z.mul_lt_mono_pos_r; assumption.
    - replace (c1 * d * P) with (d * (c1 * P)) by ring.
      replace (d * (2 * K * u) * c) with (d * (2 * K * u * c)) by ring.
      apply Z.mul_le_mono_nonneg_l; [lia|exact P1]. }
  assert (Hlow : q = 0 \/ d * (K * u) <= n * P).
  { destruct P2 as [?|P2]; [left; assumption|right].
    apply (Z.mul_le_mono_pos_r _ _ c); [exact HC|].
    replace (d * (K * u) * c) with (d * (K * u * c)) by ring. rewrite P2.
    replace (d * (c0 * P)) with (c0 * d * P) by ring.
    replace (n * P * c) with (n * c * P) by ring.
    apply Z.mul_le_mono_nonneg_r; [lia|exact L]. }
  assert (R2 : 2 * Z.abs (n * P - d * (m * u)) <= d * u).
  { apply (Z.mul_le_mono_pos_r _ _ b); [exact Hb0|].
    replace (2 * Z.abs (n * P - d * (m * u)) * b)
      with (2 * Z.abs (n * a - m * (d * b)) * u) by (rewrite <- !Z.mul_assoc, Hscale; ring).
    replace (d * u * b) with (d * b * u) by ring.
    apply Z.mul_le_mono_nonneg_r; [lia|exact R]. }
  assert (R3 : 2 * Z.abs (n * P - d * (m * u)) = d * u -> Z.even m = true).
  { intros T. apply Htie. apply (Z.mul_reg_r _ _ u); [lia|].
    rewrite <- Z.mul_assoc, Hscale. replace (d * b * u) with (d * u * b) by ring.
    rewrite <- T. ring. }
  assert (HnP : 0 < n * P) by nia.
  replace (d * (m * u)) with (m * (d * u)) in * by ring.
  replace (d * (2 * K * u)) with (2 * K * (d * u)) in * by ring.
  replace (d * (K * u)) with (K * (d * u)) in * by ring.
  revert R2 R3 HnP Hup Hlow Hdu. generalize (d * u), (n * P). intros w N R2 R3 HnP Hup Hlow Hdu.
  assert (Hm0 : 0 <= m) by (assert (- 1 < m); [|lia]; nia).
  assert (HmK : m <= 2 * K) by (assert (m < 2 * K + 1); [|lia]; nia).
  assert (Hm1 : q = 0 \/ K <= m).
  { destruct Hlow as [?|Hl]; [left; assumption|right]. assert (K - 1 < m); [|lia]. nia. }
  split; [exact (Hval Hm1 (conj Hm0 HmK))|]. split; [split; assumption|].
  split; [exact R2|]. split; [exact R3|]. split; [exact Hm1|exact Hlow].
Qed.

(** Nearest, and to even when two are equally near. *)
Lemma dbl_round_nearest n d b : 0 < n -> 0 < d -> dbl_round n d < DBL_INF -> 0 <= b ->
  Z.abs (n * 2 ^ 1074 - d * dval (dbl_round n d)) <= Z.abs (n * 2 ^ 1074 - d * dval b)
  /\ (Z.abs (n * 2 ^ 1074 - d * dval (dbl_round n d)) = Z.abs (n * 2 ^ 1074 - d * dval b) ->
      b = dbl_round n d \/ Z.even (dbl_round n d) = true).
Proof.
  intros Hn Hd Hlt Hb.
  destruct (dbl_round_unit n d Hn Hd Hlt)
    as (m & q & Hq & Er & Ev & Hm & Hnear & Htie & Hm1 & Hlow).
  set (a := dbl_round n d) in *. rewrite Ev. set (N := n * 2 ^ 1074) in *.
  assert (Hp : 0 < 2 ^ q) by (apply Z.pow_pos_nonneg; lia). set (u := 2 ^ q) in *.
  assert (Hdu : 0 < d * u) by nia.
  assert (Hev : Z.even m = true -> Z.even a = true).
  { intros He. rewrite Er, Z.even_add, Z.even_mul, He, orb_comm. reflexivity. }
  assert (Ha0 : 0 <= a) by nia.
  assert (Key : forall k, k = d * dval b -> b <> a ->
    k - d * (m * u) >= d * u \/ (d * (m * u) - k >= d * u \/ d * (m * u) - k > 0 /\ d * (m * u) <= N)).
  { intros k -> Hne. destruct (Z_lt_le_dec a b) as [Hab|Hab].
    - left. pose proof (dval_up a b Ha0 Hab) as D. rewrite Ev in D.
      assert (u <= gap a).
      { unfold gap, u. apply Z.pow_le_mono_r; [lia|]. change (2 ^ 52) with K.
        assert (q = 0 \/ q + 1 <= a / K); [|lia].
        destruct Hm1 as [?|?]; [left; assumption|right].
        apply Z.div_le_lower_bound; lia. }
      nia.
    - right. assert (Hba : b < a) by lia. pose proof (dval_down a b Hb Hba) as D.
      rewrite Ev in D. pose proof (gap_pos (a - 1)).
      destruct (Z.eq_dec q 0) as [Hq0|Hq0].
      + left. assert (u <= gap (a - 1)); [|nia].
        unfold u. rewrite Hq0. change (2 ^ 0) with 1. lia.
      + destruct (Z.eq_dec m K) as [HK|HK].
        * right. split; [nia|]. rewrite HK. destruct Hlow as [?|?]; lia.
        * left. assert (u <= gap (a - 1)); [|nia].
          unfold gap, u. apply Z.pow_le_mono_r; [lia|]. change (2 ^ 52) with K.
          assert (q + 1 <= (a - 1) / K); [|lia]. apply Z.div_le_lower_bound; lia. }
  destruct (Z.eq_dec b a) as [->|Hne].
  { rewrite Ev. split; [lia|]. intros _. left. reflexivity. }
  specialize (Key _ eq_refl Hne). set (V := d * dval b) in *. set (A := d * (m * u)) in *.
  split; [lia|]. intros Heq. right. apply Hev, Htie. lia.
Qed.
