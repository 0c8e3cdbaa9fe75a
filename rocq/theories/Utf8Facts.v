(** The UTF-8 codec is a bijection between strings of scalar values and valid
    byte sequences. *)
From Coq Require Import ZArith List Bool Lia.
From Coq Require Import Init.Byte.
From Coq Require Import ZifyBool ZifyNat ZifyN.
From Verif Require Import Base Bytes BytesFacts Utf8.
Import ListNotations.
Open Scope Z_scope.
Ltac Zify.zify_post_hook ::= Z.div_mod_to_equations.

Lemma some_inj A (x y : A) : Some x = Some y -> x = y.
Proof. congruence. Qed.

Ltac dif :=
  match goal with |- (if ?b then _ else _) = _ => destruct b eqn:? end.

Lemma utf8_decode_char c b r : utf8_char c = Some b ->
  utf8_decode (b ++ r) =
  match utf8_decode r with Some s => Some (c :: s) | None => None end.
Proof.
  unfold utf8_char, scalar. intros H.
  destruct (negb _) eqn:Hs; [discriminate|].
  destruct (c <? 128) eqn:H1;
    [|destruct (c <? 2048) eqn:H2; [|destruct (c <? 65536) eqn:H3]];
    apply some_inj in H; subst b; cbn [app utf8_decode];
    unfold cont, in_range; rewrite ?b2z_z2b.
  - replace (c mod 256) with c by lia. rewrite H1. reflexivity.
  - replace ((192 + c / 64) mod 256) with (192 + c / 64) by lia.
    replace ((128 + c mod 64) mod 256) with (128 + c mod 64) by lia.
    dif; [lia|].
    dif; [|lia].
    dif; [|lia].
    replace ((192 + c / 64 - 192) * 64 + (128 + c mod 64 - 128)) with c by lia.
    reflexivity.
  - replace ((224 + c / 4096) mod 256) with (224 + c / 4096) by lia.
    replace ((128 + (c / 64) mod 64) mod 256) with (128 + (c / 64) mod 64) by lia.
    replace ((128 + c mod 64) mod 256) with (128 + c mod 64) by lia.
    dif; [lia|].
    dif; [lia|].
    dif; [|lia].
    dif; [|lia].
    replace (_ + (128 + c mod 64 - 128)) with c by lia.
    reflexivity.
  - replace ((240 + c / 262144) mod 256) with (240 + c / 262144) by lia.
    replace ((128 + (c / 4096) mod 64) mod 256)
      with (128 + (c / 4096) mod 64) by lia.
    replace ((128 + (c / 64) mod 64) mod 256) with (128 + (c / 64) mod 64) by lia.
    replace ((128 + c mod 64) mod 256) with (128 + c mod 64) by lia.
    dif; [lia|].
    dif; [lia|].
    dif; [lia|].
    dif; [|lia].
    dif; [|lia].
    replace (_ + (128 + c mod 64 - 128)) with c by lia.
    reflexivity.
Qed.

Ltac difH H :=
  match type of H with (if ?b then _ else _) = _ => destruct b eqn:? end.

Theorem utf8_decode_encode s b : utf8_encode s = Some b ->
  utf8_decode b = Some s.
Proof.
  revert b; induction s as [|c s IH]; intros b H; cbn [utf8_encode] in H.
  - injection H as <-. reflexivity.
  - destruct (utf8_char c) as [bc|] eqn:Ec; [|discriminate].
    destruct (utf8_encode s) as [bs|]; [|discriminate].
    injection H as <-. rewrite (utf8_decode_char c) by assumption.
    rewrite (IH bs eq_refl). reflexivity.
Qed.

Lemma z2b_eq z b : z mod 256 = b2z b -> z2b z = b.
Proof. intros H. apply b2z_inj. rewrite b2z_z2b. exact H. Qed.

Theorem utf8_encode_decode b s : utf8_decode b = Some s ->
  utf8_encode s = Some b.
Proof.
  revert s. remember (length b) as n eqn:En.
  assert (Hn : (length b <= n)%nat) by lia. clear En.
  revert b Hn. induction n as [|n IH]; intros b Hn s H.
  - destruct b; [|cbn in Hn; lia]. injection H as <-. reflexivity.
  - destruct b as [|b0 r0]; [injection H as <-; reflexivity|].
    cbn [utf8_decode] in H. cbn [length] in Hn. pose proof (b2z_range b0).
    unfold cont, in_range in H.
    destruct (b2z b0 <? 128) eqn:H1.
    { destruct (utf8_decode r0) as [s0|] eqn:E0; [|discriminate].
      apply some_inj in H; subst s. cbn [utf8_encode].
      rewrite (IH r0) with (s := s0) by (assumption || lia).
      unfold utf8_char.
      assert (Hs : scalar (b2z b0) = true) by (unfold scalar; lia).
      rewrite Hs. cbn [negb]. rewrite H1, z2b_b2z. reflexivity. }
    destruct ((194 <=? b2z b0) && (b2z b0 <=? 223)) eqn:H2.
    { destruct r0 as [|b1 r1]; [discriminate|].
      pose proof (b2z_range b1). cbn [length] in Hn.
      difH H; [|discriminate].
      destruct (utf8_decode r1) as [s1|] eqn:E1; [|discriminate].
      apply some_inj in H; subst s. cbn [utf8_encode].
      rewrite (IH r1) with (s := s1) by (assumption || lia).
      unfold utf8_char. set (c := _ + _).
      assert (Hc : c = (b2z b0 - 192) * 64 + (b2z b1 - 128)) by reflexivity.
      clearbody c.
      assert (Hs : scalar c = true) by (unfold scalar; lia).
      rewrite Hs. cbn [negb].
      destruct (c <? 128) eqn:?; [lia|].
      destruct (c <? 2048) eqn:?; [|lia].
      cbn [app]. rewrite !(z2b_eq _ b0), !(z2b_eq _ b1) by lia. reflexivity. }
    destruct ((224 <=? b2z b0) && (b2z b0 <=? 239)) eqn:H3.
    { destruct r0 as [|b1 [|b2 r2]]; [discriminate..|].
      pose proof (b2z_range b1). pose proof (b2z_range b2).
      cbn [length] in Hn.
      difH H; [|discriminate].
      destruct (utf8_decode r2) as [s2|] eqn:E2; [|discriminate].
      apply some_inj in H; subst s. cbn [utf8_encode].
      rewrite (IH r2) with (s := s2) by (assumption || lia).
      unfold utf8_char. set (c := _ + _).
      assert (Hc : c = (b2z b0 - 224) * 4096 + (b2z b1 - 128) * 64
                       + (b2z b2 - 128)) by reflexivity.
      clearbody c.
      assert (Hs : scalar c = true) by (unfold scalar; lia).
      rewrite Hs. cbn [negb].
      destruct (c <? 128) eqn:?; [lia|].
      destruct (c <? 2048) eqn:?; [lia|].
      destruct (c <? 65536) eqn:?; [|lia].
      cbn [app]. rewrite !(z2b_eq _ b0), !(z2b_eq _ b1), !(z2b_eq _ b2) by lia.
      reflexivity. }
    destruct ((240 <=? b2z b0) && (b2z b0 <=? 244)) eqn:H4; [|discriminate].
    destruct r0 as [|b1 [|b2 [|b3 r3]]]; [discriminate..|].
    pose proof (b2z_range b1). pose proof (b2z_range b2).
    pose proof (b2z_range b3). cbn [length] in Hn.
    difH H; [|discriminate].
    destruct (utf8_decode r3) as [s3|] eqn:E3; [|discriminate].
    apply some_inj in H; subst s. cbn [utf8_encode].
    rewrite (IH r3) with (s := s3) by (assumption || lia).
    unfold utf8_char. set (c := _ + _).
    assert (Hc : c = (b2z b0 - 240) * 262144 + (b2z b1 - 128) * 4096
                     + (b2z b2 - 128) * 64 + (b2z b3 - 128)) by reflexivity.
    clearbody c.
    assert (Hs : scalar c = true) by (unfold scalar; lia).
    rewrite Hs. cbn [negb].
    destruct (c <? 128) eqn:?; [lia|].
    destruct (c <? 2048) eqn:?; [lia|].
    destruct (c <? 65536) eqn:?; [lia|].
    cbn [app].
    rewrite !(z2b_eq _ b0), !(z2b_eq _ b1), !(z2b_eq _ b2), !(z2b_eq _ b3)
      by lia.
    reflexivity.
Qed.

Lemma utf8_encode_scalar s :
  (exists b, utf8_encode s = Some b) <-> Forall (fun c => scalar c = true) s.
Proof.
  induction s as [|c s IH]; cbn [utf8_encode].
  - split; [constructor|]. intros _. eexists; reflexivity.
  - split.
    + intros [b H]. destruct (utf8_char c) as [bc|] eqn:Ec; [|discriminate].
      destruct (utf8_encode s) as [bs|] eqn:Es; [|discriminate].
      constructor.
      * unfold utf8_char in Ec. destruct (scalar c); [reflexivity|discriminate].
      * apply IH. eexists; reflexivity.
    + intros H. inversion H as [|? ? H1 H2]; subst.
      apply IH in H2 as [bs ->].
      unfold utf8_char. rewrite H1. cbn [negb].
      destruct (c <? 128); [|destruct (c <? 2048); [|destruct (c <? 65536)]];
        eexists; reflexivity.
Qed.
