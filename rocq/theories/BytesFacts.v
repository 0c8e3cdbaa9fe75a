(** Facts about fixed-width integers. *)
From Coq Require Import ZArith List Bool Lia.
From Coq Require Import Init.Byte.
From Coq Require Strings.Byte.
From Coq Require Import ZifyBool ZifyNat ZifyN.
From Verif Require Import Base Bytes.
Import ListNotations.
Open Scope Z_scope.
Ltac Zify.zify_post_hook ::= Z.div_mod_to_equations.

Lemma b2z_range b : 0 <= b2z b < 256.
Proof.
  unfold b2z. pose proof (Byte.to_N_bounded b). lia.
Qed.

Lemma z2b_b2z b : z2b (b2z b) = b.
Proof.
  unfold z2b. rewrite Z.mod_small by apply b2z_range.
  unfold b2z. rewrite N2Z.id, Byte.of_to_N. reflexivity.
Qed.

Lemma b2z_z2b z : b2z (z2b z) = z mod 256.
Proof.
  unfold z2b.
  assert (H : 0 <= z mod 256 < 256) by (apply Z.mod_pos_bound; lia).
  destruct (Byte.of_N (Z.to_N (z mod 256))) as [b|] eqn:E.
  - apply Byte.to_of_N in E. unfold b2z. rewrite E. lia.
  - exfalso. apply Byte.of_N_None_iff in E. lia.
Qed.

Lemma b2z_inj a b : b2z a = b2z b -> a = b.
Proof. intros H. rewrite <- (z2b_b2z a), <- (z2b_b2z b), H. reflexivity. Qed.

Lemma z2b_mod z : z2b (z mod 256) = z2b z.
Proof. unfold z2b. rewrite Z.mod_mod by lia. reflexivity. Qed.

Lemma le_bytes_length n z : length (le_bytes n z) = n.
Proof. revert z; induction n; intros; cbn [le_bytes length]; auto. Qed.

Lemma be_bytes_length n z : length (be_bytes n z) = n.
Proof. unfold be_bytes. rewrite rev_length. apply le_bytes_length. Qed.

Lemma pow256_pos n : 0 < 256 ^ Z.of_nat n.
Proof. apply Z.pow_pos_nonneg; lia. Qed.

Lemma le_val_le_bytes n z : le_val (le_bytes n z) = z mod 256 ^ Z.of_nat n.
Proof.
  revert z; induction n; intros z.
  - cbn [le_bytes le_val]. change (256 ^ Z.of_nat 0) with 1.
    rewrite Z.mod_1_r. reflexivity.
  - cbn [le_bytes le_val]. rewrite IHn, b2z_z2b.
    rewrite Nat2Z.inj_succ, Z.pow_succ_r by lia.
    pose proof (pow256_pos n).
    rewrite Z.rem_mul_r by lia. reflexivity.
Qed.

Lemma be_val_be_bytes n z : be_val (be_bytes n z) = z mod 256 ^ Z.of_nat n.
Proof.
  unfold be_val, be_bytes. rewrite rev_involutive. apply le_val_le_bytes.
Qed.

Lemma le_val_range l : 0 <= le_val l < 256 ^ Z.of_nat (length l).
Proof.
  induction l as [|b l IH].
  - change (256 ^ Z.of_nat (length (@nil byte))) with 1. cbn [le_val]. lia.
  - cbn [le_val length]. rewrite Nat2Z.inj_succ, Z.pow_succ_r by lia.
    pose proof (b2z_range b). lia.
Qed.

Lemma be_val_range l : 0 <= be_val l < 256 ^ Z.of_nat (length l).
Proof.
  unfold be_val. pose proof (le_val_range (rev l)) as H.
  rewrite rev_length in H. exact H.
Qed.

Lemma le_bytes_le_val l : le_bytes (length l) (le_val l) = l.
Proof.
  induction l as [|b l IH]; [reflexivity|].
  cbn [length le_bytes le_val]. pose proof (b2z_range b).
  replace (b2z b + 256 * le_val l) with (le_val l * 256 + b2z b) by ring.
  rewrite Z.div_add_l by lia. rewrite (Z.div_small (b2z b)) by lia.
  rewrite Z.add_0_r, IH. f_equal.
  rewrite <- (z2b_mod (le_val l * 256 + b2z b)).
  rewrite Z.add_comm, Z.mod_add by lia. rewrite z2b_mod. apply z2b_b2z.
Qed.

Lemma be_bytes_be_val l : be_bytes (length l) (be_val l) = l.
Proof.
  unfold be_bytes, be_val. rewrite <- (rev_length l), le_bytes_le_val.
  apply rev_involutive.
Qed.

Lemma pow2_256 n : 2 ^ (8 * Z.of_nat n) = 256 ^ Z.of_nat n.
Proof. rewrite Z.pow_mul_r by lia. reflexivity. Qed.

Lemma to_signed_mod n z : (0 < n)%nat ->
  - 2 ^ (8 * Z.of_nat n - 1) <= z < 2 ^ (8 * Z.of_nat n - 1) ->
  to_signed n (z mod 256 ^ Z.of_nat n) = z.
Proof.
  intros Hn Hz. unfold to_signed. rewrite pow2_256.
  assert (E : 256 ^ Z.of_nat n = 2 * 2 ^ (8 * Z.of_nat n - 1)).
  { rewrite <- pow2_256, <- Z.pow_succ_r by lia. f_equal. lia. }
  set (h := 2 ^ (8 * Z.of_nat n - 1)) in *. rewrite E. clearbody h. clear E.
  destruct (Z.ltb_spec z 0) as [L|L].
  - assert (R : z mod (2 * h) = z + 2 * h).
    { symmetry. apply (Z.mod_unique _ _ (-1)); lia. }
    rewrite R. destruct (z + 2 * h <? h) eqn:F; lia.
  - rewrite Z.mod_small by lia. destruct (z <? h) eqn:F; lia.
Qed.

Lemma to_signed_range n u : (0 < n)%nat -> 0 <= u < 256 ^ Z.of_nat n ->
  - 2 ^ (8 * Z.of_nat n - 1) <= to_signed n u < 2 ^ (8 * Z.of_nat n - 1).
Proof.
  intros Hn Hu. unfold to_signed. rewrite pow2_256.
  assert (E : 256 ^ Z.of_nat n = 2 * 2 ^ (8 * Z.of_nat n - 1)).
  { rewrite <- pow2_256, <- Z.pow_succ_r by lia. f_equal. lia. }
  set (h := 2 ^ (8 * Z.of_nat n - 1)) in *. rewrite E in *. clearbody h.
  destruct (u <? h) eqn:F; lia.
Qed.

Definition in_signed (n : nat) (z : Z) : Prop :=
  - 2 ^ (8 * Z.of_nat n - 1) <= z < 2 ^ (8 * Z.of_nat n - 1).

Lemma unpack_pack n z : (0 < n)%nat -> in_signed n z ->
  unpack_signed n (be_bytes n z) = z.
Proof.
  intros. unfold unpack_signed. rewrite be_val_be_bytes.
  apply to_signed_mod; assumption.
Qed.

Lemma unpack_signed_range n l : (0 < n)%nat -> length l = n ->
  in_signed n (unpack_signed n l).
Proof.
  intros Hn Hl. apply to_signed_range; [assumption|].
  rewrite <- Hl. apply be_val_range.
Qed.

Lemma pack_signed_ok S n z (s : S) : in_signed n z ->
  pack_signed n z s = (Ok (be_bytes n z), s).
Proof.
  intros H. unfold pack_signed, in_signed in *.
  destruct (_ && _) eqn:E; [reflexivity|]. lia.
Qed.

Lemma pack_signed_bad S n z (s : S) : ~ in_signed n z ->
  pack_signed n z s = (Raise EStructError, s).
Proof.
  intros H. unfold pack_signed, in_signed in *.
  destruct (_ && _) eqn:E; [|reflexivity]. lia.
Qed.

Lemma pack_unsigned_ok S n z (s : S) : 0 <= z < 256 ^ Z.of_nat n ->
  pack_unsigned n z s = (Ok (be_bytes n z), s).
Proof.
  intros H. unfold pack_unsigned. rewrite pow2_256.
  destruct (_ && _) eqn:E; [reflexivity|]. lia.
Qed.

Lemma be_bytes_1 z : be_bytes 1 z = [z2b z].
Proof. reflexivity. Qed.

Lemma bytes_eqb_spec a b : reflect (a = b) (bytes_eqb a b).
Proof.
  unfold bytes_eqb. destruct (list_eq_dec _ a b); constructor; assumption.
Qed.
