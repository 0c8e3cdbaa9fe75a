(** Facts about varints and zigzag. *)
From Coq Require Import ZArith List Bool Lia.
From Coq Require Import Init.Byte.
From Coq Require Import ZifyBool ZifyNat ZifyN.
From Verif Require Import Base Bytes BytesFacts Proto Compact SpecCompact.
Import ListNotations.
Open Scope Z_scope.
Ltac Zify.zify_post_hook ::= Z.div_mod_to_equations.

Lemma lor_add a b s : 0 <= s -> 0 <= a < 2 ^ s ->
  Z.lor a (Z.shiftl b s) = a + b * 2 ^ s.
Proof.
  intros Hs Ha. rewrite Z.shiftl_mul_pow2 by assumption.
  assert (L : Z.land a (b * 2 ^ s) = 0).
  { apply Z.bits_inj'. intros i Hi. rewrite Z.land_spec, Z.bits_0.
    destruct (Z.ltb_spec i s) as [Lt|Ge].
    - rewrite Z.mul_pow2_bits_low by assumption. apply andb_false_r.
    - replace a with (a mod 2 ^ s) by (apply Z.mod_small; assumption).
      rewrite Z.mod_pow2_bits_high by lia. reflexivity. }
  rewrite <- Z.lxor_lor by assumption. symmetry.
  apply Z.add_nocarry_lxor. assumption.
Qed.

Lemma land_ones k n : 0 <= k -> Z.land n (2 ^ k - 1) = n mod 2 ^ k.
Proof.
  intros Hk. rewrite <- Z.land_ones by assumption.
  rewrite Z.ones_equiv. reflexivity.
Qed.

Lemma land1 n : Z.land n 1 = n mod 2.
Proof. apply (land_ones 1). lia. Qed.
Lemma land127 n : Z.land n 127 = n mod 128.
Proof. apply (land_ones 7). lia. Qed.
Lemma land255 n : Z.land n 255 = n mod 256.
Proof. apply (land_ones 8). lia. Qed.
Lemma land15 n : Z.land n 15 = n mod 16.
Proof. apply (land_ones 4). lia. Qed.
Lemma shiftr_div n k : 0 <= k -> Z.shiftr n k = n / 2 ^ k.
Proof. apply Z.shiftr_div_pow2. Qed.

Lemma land_lnot127 n : Z.land n (Z.lnot 127) = 128 * (n / 128).
Proof.
  change 127 with (Z.ones 7). rewrite <- Z.ldiff_land.
  rewrite Z.ldiff_ones_r by lia.
  rewrite Z.shiftl_mul_pow2, Z.shiftr_div_pow2 by lia.
  change (2 ^ 7) with 128. lia.
Qed.

Lemma lor_128 m : 0 <= m < 256 -> Z.lor m 128 = 128 + m mod 128.
Proof.
  intros Hm.
  pose proof (lor_add (m mod 128) 1 7 ltac:(lia) ltac:(change (2 ^ 7) with 128; lia))
    as E.
  change (Z.shiftl 1 7) with 128 in E. change (1 * 2 ^ 7) with 128 in E.
  destruct (Z.ltb_spec m 128) as [L|G].
  - rewrite Z.mod_small in * by lia. lia.
  - assert (M : m = Z.lor (m mod 128) 128) by lia.
    rewrite M at 1. rewrite <- Z.lor_assoc, Z.lor_diag. lia.
Qed.

Lemma cont_byte n : z2b (Z.lor (Z.land n 255) 128) = z2b (128 + n mod 128).
Proof.
  rewrite land255, lor_128 by (apply Z.mod_pos_bound; lia).
  f_equal. lia.
Qed.

(** The writer's loop produces ULEB128, for any sufficient bound. *)
Lemma varint_loop_uleb k : forall n acc fuel, 0 <= n < 128 ^ Z.of_nat k ->
  (k <= fuel)%nat -> (0 < k)%nat ->
  varint_loop fuel n acc = Some (acc ++ uleb k n).
Proof.
  induction k as [|k IH]; intros n acc fuel Hn Hf Hk; [lia|].
  destruct fuel as [|fuel]; [lia|]. cbn [varint_loop uleb].
  rewrite land_lnot127.
  destruct (n <? 128) eqn:E.
  - destruct (128 * (n / 128) =? 0) eqn:G; [reflexivity|lia].
  - destruct (128 * (n / 128) =? 0) eqn:G; [lia|].
    rewrite shiftr_div by lia. change (2 ^ 7) with 128.
    rewrite Nat2Z.inj_succ, Z.pow_succ_r in Hn by lia.
    destruct k as [|k].
    { change (128 ^ Z.of_nat 0) with 1 in Hn. lia. }
    rewrite IH; [|split|lia|lia].
    + rewrite <- app_assoc, cont_byte. reflexivity.
    + lia.
    + apply Z.div_lt_upper_bound; lia.
Qed.

Lemma uleb_mono k k' n : 0 <= n < 128 ^ Z.of_nat k -> (k <= k')%nat ->
  (0 < k)%nat -> uleb k' n = uleb k n.
Proof.
  revert k' n; induction k as [|k IH]; intros k' n Hn Hk H0; [lia|].
  destruct k' as [|k']; [lia|]. cbn [uleb].
  destruct (n <? 128) eqn:E; [reflexivity|]. f_equal.
  rewrite Nat2Z.inj_succ, Z.pow_succ_r in Hn by lia.
  destruct k as [|k].
  { change (128 ^ Z.of_nat 0) with 1 in Hn. lia. }
  apply IH; [split; [lia|apply Z.div_lt_upper_bound; lia]|lia|lia].
Qed.

(** [varint_fuel] is enough for any non-negative number. *)
Lemma varint_fuel_enough n : 0 <= n -> n < 128 ^ Z.of_nat (varint_fuel n).
Proof.
  intros Hn. unfold varint_fuel. destruct (Z.eqb_spec n 0) as [->|Hz].
  - reflexivity.
  - pose proof (Z.log2_nonneg n).
    destruct (Z.log2_spec n ltac:(lia)) as [_ H2].
    rewrite Nat2Z.inj_succ, Z2Nat.id by assumption.
    eapply Z.lt_le_trans; [exact H2|].
    apply Z.pow_le_mono_l. lia.
Qed.

Lemma varint_loop_any n : 0 <= n ->
  varint_loop (varint_fuel n) n [] = Some (uleb (varint_fuel n) n).
Proof.
  intros Hn. rewrite (varint_loop_uleb (varint_fuel n)); auto.
  - split; [assumption|apply varint_fuel_enough; assumption].
  - unfold varint_fuel; lia.
Qed.

Lemma varint_loop_varint n : 0 <= n < 128 ^ 10 ->
  varint_loop (varint_fuel n) n [] = Some (varint n).
Proof.
  intros Hn. rewrite varint_loop_any by lia. f_equal. unfold varint.
  assert (H1 := varint_fuel_enough n ltac:(lia)).
  assert (0 < varint_fuel n)%nat by (unfold varint_fuel; lia).
  destruct (Nat.le_ge_cases (varint_fuel n) 10) as [L|G].
  - symmetry. apply uleb_mono; auto. lia.
  - apply uleb_mono; auto; try lia. 
Qed.

Lemma writeVarint_ok X n (s : st X) : 0 <= n < 128 ^ 10 ->
  writeVarint n s =
  (Ok tt, mkst (px s) (inp s) (out s ++ varint n) (depth s)).
Proof.
  intros Hn. unfold writeVarint, assert_, bind.
  destruct (0 <=? n) eqn:E; [|lia]. cbn [ret].
  rewrite varint_loop_varint by assumption. reflexivity.
Qed.

Lemma be_val_1 b : be_val [b] = b2z b.
Proof. unfold be_val. cbn [rev app le_val]. lia. Qed.

Lemma readAll_1 X b tail (x : X) o d :
  readAll 1 (mkst x (b :: tail) o d) = (Ok [b], mkst x tail o d).
Proof.
  unfold readAll. cbn [inp px out depth].
  change (1 <=? 0) with false. cbn [length].
  destruct (1 <=? Z.of_nat (S (length tail))) eqn:E; [reflexivity|lia].
Qed.

Lemma readVarint_loop_ok X k : forall n result shift tail (x : X) o d,
  0 <= n < 128 ^ Z.of_nat k -> (0 < k)%nat -> 0 <= shift ->
  0 <= result < 2 ^ shift ->
  readVarint_loop k result shift (mkst x (uleb k n ++ tail) o d)
  = (Ok (result + n * 2 ^ shift), mkst x tail o d).
Proof.
  induction k as [|k IH]; intros n result shift tail x o d Hn Hk Hs Hr; [lia|].
  cbn [uleb readVarint_loop]. destruct (n <? 128) eqn:E.
  - cbn [app]. unfold bind. rewrite readAll_1, be_val_1, b2z_z2b.
    rewrite (Z.mod_small n) by lia. rewrite land127, (Z.mod_small n) by lia.
    rewrite lor_add by assumption.
    rewrite shiftr_div by lia. change (2 ^ 7) with 128.
    destruct (n / 128 =? 0) eqn:G; [reflexivity|lia].
  - cbn [app]. unfold bind at 1. rewrite readAll_1, be_val_1, b2z_z2b.
    rewrite (Z.mod_small (128 + n mod 128)) by lia.
    rewrite land127. replace ((128 + n mod 128) mod 128) with (n mod 128) by lia.
    rewrite lor_add by assumption.
    rewrite shiftr_div by lia. change (2 ^ 7) with 128.
    destruct ((128 + n mod 128) / 128 =? 0) eqn:G; [lia|].
    rewrite Nat2Z.inj_succ, Z.pow_succ_r in Hn by lia.
    destruct k as [|k].
    { change (128 ^ Z.of_nat 0) with 1 in Hn. lia. }
    assert (Hp : 2 ^ (shift + 7) = 128 * 2 ^ shift).
    { rewrite Z.pow_add_r by lia. change (2 ^ 7) with 128. ring. }
    rewrite IH.
    + f_equal. f_equal. rewrite Hp.
      rewrite (Z.div_mod n 128) at 3 by lia. ring.
    + split; [lia|apply Z.div_lt_upper_bound; lia].
    + lia.
    + lia.
    + rewrite Hp. pose proof (Z.mod_pos_bound n 128 ltac:(lia)). nia.
Qed.

Lemma readVarint_ok X n tail (x : X) o d : 0 <= n < 128 ^ 10 ->
  readVarint (mkst x (varint n ++ tail) o d) = (Ok n, mkst x tail o d).
Proof.
  intros Hn. unfold readVarint, varint.
  rewrite readVarint_loop_ok; auto; try lia.
  f_equal. f_equal. change (2 ^ 0) with 1. lia.
Qed.

Lemma varint_pos n : (1 <= length (varint n))%nat.
Proof.
  unfold varint. change 10%nat with (S 9). cbn [uleb].
  destruct (n <? 128); cbn [length]; lia.
Qed.

(** * Zigzag *)

Definition in_bits (bits n : Z) : Prop := - 2 ^ (bits - 1) <= n < 2 ^ (bits - 1).

Lemma makeZigZag_ok S n bits (s : S) : 1 <= bits -> in_bits bits n ->
  makeZigZag n bits s = (Ok (zigzag n), s).
Proof.
  intros Hb Hn. unfold in_bits in Hn.
  unfold makeZigZag, checkIntegerLimits, bind.
  destruct (_ || _) eqn:E; [lia|]. cbn [ret]. unfold ret. f_equal. f_equal.
  unfold zigzag. rewrite Z.shiftl_mul_pow2 by lia. change (2 ^ 1) with 2.
  rewrite shiftr_div by lia.
  destruct (0 <=? n) eqn:G.
  - rewrite (Z.div_small n) by lia. rewrite Z.lxor_0_r. lia.
  - replace (n / 2 ^ (bits - 1)) with (-1).
    2:{ apply Z.div_unique with (n + 2 ^ (bits - 1)); lia. }
    rewrite Z.lxor_m1_r. unfold Z.lnot. lia.
Qed.

Lemma makeZigZag_bad S n bits (s : S) : ~ in_bits bits n ->
  makeZigZag n bits s = (Raise (EProtocol TP_INVALID_DATA), s).
Proof.
  intros Hn. unfold in_bits in Hn.
  unfold makeZigZag, checkIntegerLimits, bind.
  destruct (_ || _) eqn:E; [reflexivity|lia].
Qed.

Lemma fromZigZag_zigzag n : fromZigZag (zigzag n) = n.
Proof.
  unfold fromZigZag, zigzag. rewrite shiftr_div by lia. change (2 ^ 1) with 2.
  rewrite land1.
  destruct (0 <=? n) eqn:E.
  - replace ((2 * n) mod 2) with 0 by lia. replace (2 * n / 2) with n by lia.
    apply Z.lxor_0_r.
  - replace ((-2 * n - 1) mod 2) with 1 by lia.
    replace ((-2 * n - 1) / 2) with (- n - 1) by lia.
    change (- (1)) with (-1). rewrite Z.lxor_m1_r. unfold Z.lnot. lia.
Qed.

Lemma zigzag_range bits n : 1 <= bits -> in_bits bits n ->
  0 <= zigzag n < 2 ^ bits.
Proof.
  unfold in_bits, zigzag. intros Hb Hn.
  replace (2 ^ bits) with (2 * 2 ^ (bits - 1))
    by (rewrite <- Z.pow_succ_r by lia; f_equal; lia).
  destruct (0 <=? n) eqn:E; lia.
Qed.

Lemma fromZigZag_inv m : 0 <= m -> zigzag (fromZigZag m) = m.
Proof.
  intros Hm. unfold fromZigZag. rewrite shiftr_div by lia.
  change (2 ^ 1) with 2.
  rewrite land1.
  destruct (Z.eqb_spec (m mod 2) 0) as [E|E].
  - rewrite E. change (- 0) with 0. rewrite Z.lxor_0_r. unfold zigzag.
    destruct (0 <=? m / 2) eqn:G; lia.
  - replace (m mod 2) with 1 by lia. change (- (1)) with (-1).
    rewrite Z.lxor_m1_r. unfold Z.lnot, zigzag.
    destruct (0 <=? Z.pred (- (m / 2))) eqn:G; lia.
Qed.
