(** JSON strings: the reader accepts every string of RFC 8259, and the writer
    writes one unless there are raw control characters.  Base64 without
    padding. *)
From Coq Require Import ZArith List Bool Lia.
From Coq Require Import Init.Byte.
From Coq Require Import ZifyBool ZifyNat ZifyN.
From Verif Require Import Base Bytes BytesFacts Utf8 Utf8Facts Proto Spec Laws
  Compact BinaryLaws JsonText JsonTextFacts Json JsonLaws SpecJson JsonFacts.
Import ListNotations.
Open Scope Z_scope.

Lemma hex_digit_range c d : hex_digit c = Some d ->
  0 <= d < 16 /\ (48 <= c <= 57 \/ 65 <= c <= 70 \/ 97 <= c <= 102).
Proof.
  unfold hex_digit, is_digit.
  repeat match goal with |- context [if ?b then _ else _] => destruct b eqn:? end;
    intros H; try discriminate; apply some_inj in H; subst d; lia.
Qed.

Lemma hex4_inv a b c d u : hex4 a b c d = Some u -> exists x y z w,
  hex_digit a = Some x /\ hex_digit b = Some y /\ hex_digit c = Some z
  /\ hex_digit d = Some w /\ u = ((x * 16 + y) * 16 + z) * 16 + w.
Proof.
  unfold hex4. destruct (hex_digit a) as [x|]; [|discriminate].
  destruct (hex_digit b) as [y|]; [|discriminate].
  destruct (hex_digit c) as [z|]; [|discriminate].
  destruct (hex_digit d) as [w|]; [|discriminate].
  intros H. apply some_inj in H. exists x, y, z, w. auto.
Qed.

Definition hex_body (l : list Z) : option Z :=
  match l with
  | 48 :: 120 :: 95 :: r | 48 :: 88 :: 95 :: r
  | 48 :: 120 :: r | 48 :: 88 :: r => hex_tail r 0 false
  | _ => hex_tail l 0 false
  end.

Lemma hex_body_plain a b r : b <> 120 -> b <> 88 ->
  hex_body (a :: b :: r) = hex_tail (a :: b :: r) 0 false.
Proof.
  intros H1 H2. unfold hex_body. destruct a as [|p|p]; try reflexivity.
  do 6 (destruct p as [p|p|]; try reflexivity).
  destruct b as [|p|p]; try reflexivity.
  do 7 (destruct p as [p|p|]; try reflexivity; try lia).
Qed.

Lemma py_int16_body a r : is_space a = false -> a <> 45 -> a <> 43 ->
  py_int16 (a :: r) = hex_body (a :: r).
Proof.
  intros H0 H1 H2. unfold py_int16. cbn [drop_space]. rewrite H0.
  destruct a as [|p|p]; try reflexivity.
  do 6 (destruct p as [p|p|]; try reflexivity; try lia).
Qed.

Lemma py_int16_hex4 a b c d u : hex4 a b c d = Some u ->
  py_int16 [a; b; c; d] = Some u /\ 0 <= u < 65536
  /\ forallb (fun c => (0 <=? c) && (c <? 128)) [a; b; c; d] = true.
Proof.
  intros H. apply hex4_inv in H as (x & y & z & w & Ha & Hb & Hc & Hd & ->).
  pose proof (hex_digit_range _ _ Ha). pose proof (hex_digit_range _ _ Hb).
  pose proof (hex_digit_range _ _ Hc). pose proof (hex_digit_range _ _ Hd).
  split; [|split; [lia|cbn [forallb]; lia]].
  rewrite py_int16_body by (try (unfold is_space; lia); lia).
  rewrite hex_body_plain by lia. cbn [hex_tail]. rewrite Ha, Hb, Hc, Hd.
  f_equal; lia.
Qed.

Lemma decode_ascii_ok {S} l (s : S) :
  forallb (fun c => (0 <=? c) && (c <? 128)) l = true ->
  decode_ascii (ascii l) s = (Ok l, s).
Proof.
  intros H. unfold decode_ascii, ascii.
  assert (G : forallb (fun c => b2z c <? 128) (map z2b l) = true
              /\ map b2z (map z2b l) = l).
  { induction l as [|c l IH]; [split; reflexivity|]. cbn [forallb map] in *.
    apply andb_prop in H as [H1 H2]. destruct (IH H2) as [-> ->].
    rewrite b2z_z2b, Z.mod_small by lia. split; [lia|reflexivity]. }
  destruct G as [-> ->]. reflexivity.
Qed.

Lemma escapes_range e c : In (e, c) two_char_escapes ->
  0 <= e < 128 /\ e <> 117 /\ 0 <= c < 128 /\ unescape_char e = Some c.
Proof.
  intros H. cbn in H.
  repeat (destruct H as [H|H]; [injection H as <- <-; repeat split; discriminate|]).
  destruct H.
Qed.

Lemma json_char_encodes lo t c : json_char lo t c ->
  exists b, utf8_encode t = Some b.
Proof.
  intros H. apply utf8_encode_scalar.
  destruct H as [c H1 H2 H3 H4|e c H|a b c d u H Hs|a b c d a' b' c' d' h l H H' Hh Hl].
  - constructor; [exact H4|constructor].
  - apply escapes_range in H. repeat constructor. unfold scalar. lia.
  - apply py_int16_hex4 in H as (_ & _ & H). cbn [forallb] in H.
    repeat constructor; unfold scalar; lia.
  - apply py_int16_hex4 in H as (_ & _ & H). apply py_int16_hex4 in H' as (_ & _ & H').
    cbn [forallb] in H, H'. repeat constructor; unfold scalar; lia.
Qed.

Lemma json_chars_encodes lo u s : json_chars lo u s -> exists b, utf8_encode u = Some b.
Proof.
  induction 1 as [|t c u s Ht _ [b Hb]]; [exists []; reflexivity|].
  destruct (json_char_encodes lo t c Ht) as [bt Hbt].
  exists (bt ++ b). apply utf8_encode_app; assumption.
Qed.

(** Characters above 0x7f standing for themselves at the front. *)
Lemma json_chars_split lo u s : json_chars lo u s -> exists h u' s',
  u = h ++ u' /\ s = h ++ s' /\ forallb high h = true /\ json_chars lo u' s'
  /\ match u' with c :: _ => high c = false | [] => True end.
Proof.
  induction 1 as [|t c u s Ht Hu (h & u' & s' & E1 & E2 & E3 & E4 & E5)].
  - exists [], [], []. repeat split. constructor.
  - destruct Ht as [c H1 H2 H3 H4|e c H|a b c d v H Hs|a b c d a' b' c' d' hh l H H' Hh Hl].
    + destruct (high c) eqn:Hc.
      * exists (c :: h), u', s'. subst u s. cbn [forallb]. rewrite Hc, E3. auto.
      * exists [], (c :: u), (c :: s). split; [reflexivity|]. split; [reflexivity|].
        split; [reflexivity|]. split; [|exact Hc].
        apply (jcs_cons lo [c]); [constructor; assumption|exact Hu].
    + exists [], ([92; e] ++ u), (c :: s).
      split; [reflexivity|]. split; [reflexivity|]. split; [reflexivity|].
      split; [|reflexivity]. apply jcs_cons; [constructor; assumption|exact Hu].
    + exists [], ([92; 117; a; b; c; d] ++ u), (v :: s).
      split; [reflexivity|]. split; [reflexivity|]. split; [reflexivity|].
      split; [|reflexivity]. apply jcs_cons; [eapply jc_u; eassumption|exact Hu].
    + exists [], ([92; 117; a; b; c; d; 92; 117; a'; b'; c'; d'] ++ u),
        ((65536 + (hh - 55296) * 1024 + (l - 56320)) :: s).
      split; [reflexivity|]. split; [reflexivity|]. split; [reflexivity|].
      split; [|reflexivity]. apply jcs_cons; [eapply jc_pair; eassumption|exact Hu].
Qed.

Lemma utf8_encode_head u b q tail : utf8_encode u = Some b ->
  match u with c :: _ => high c = false | [] => True end -> b2z q < 128 ->
  exists h t, b ++ q :: tail = h :: t /\ b2z h < 128.
Proof.
  intros H Hu Hq. destruct u as [|c u].
  - apply some_inj in H. subst b. exists q, tail. auto.
  - apply utf8_cons in H as (bc & bs & Ec & Es & ->).
    pose proof (utf8_char_pos c bc Ec). unfold high in Hu.
    rewrite utf8_char_ascii in Ec by lia. apply some_inj in Ec. subst bc. cbn [app].
    eexists; eexists; split; [reflexivity|]. rewrite b2z_z2b, Z.mod_small; lia.
Qed.

Lemma to_char_pair h l : 55296 <= h <= 56319 -> 56320 <= l <= 57343 ->
  to_char h l = 65536 + (h - 55296) * 1024 + (l - 56320).
Proof.
  intros Hh Hl. unfold to_char.
  change 1023 with (Z.ones 10). rewrite !Z.land_ones by lia. change (2 ^ 10) with 1024.
  Z.to_euclidean_division_equations; lia.
Qed.

Section Read.
Variable limit : option Z.

Lemma tread4 a b c d cx x i o dp r : ahead x = None ->
  j_rrep cx x i (ascii [a; b; c; d] ++ r) ->
  tread 4 (mkst x i o dp) = (Ok (ascii [a; b; c; d]), mkst x r o dp)
  /\ j_rrep cx x r r.
Proof.
  intros A [Hs Hi]. rewrite A in Hi. subst i. split.
  - reflexivity.
  - split; [exact Hs|]. rewrite A. reflexivity.
Qed.

Lemma ascii_encode l b : utf8_encode l = Some b ->
  forallb (fun c => (0 <=? c) && (c <? 128)) l = true -> b = ascii l.
Proof. intros H1 H2. rewrite (utf8_encode_ascii l H2) in H1. apply some_inj in H1. auto. Qed.

Lemma string_loop_rfc n : forall lo u s b k acc len c x i o d tail,
  (length u <= n)%nat -> json_chars lo u s -> utf8_encode u = Some b ->
  j_rrep c x i (b ++ QUOTE :: tail) -> (length b < k)%nat -> 0 <= len ->
  lim_ok limit (len + Z.of_nat (length b)) ->
  exists x' i',
    string_loop limit k None acc len (mkst x i o d) = (Ok (acc ++ s), mkst x' i' o d)
    /\ j_rrep c x' i' tail /\ ahead x' = None.
Proof.
  induction n as [|n IH]; intros lo u s b k acc len c x i o d tail Hn Hu Hb Hx Hk Hlen Hl;
    (destruct k as [|k]; [lia|]); destruct Hu as [|t ch u s Ht Hu].
  1,3: apply some_inj in Hb; subst b;
    cbn [app] in Hx; destruct (rd_next c x i QUOTE tail o d Hx) as (x1 & i1 & E1 & R1 & A1);
    cbn [string_loop]; unfold bind at 1; rewrite E1, is_byte_same;
    rewrite app_nil_r; exists x1, i1; auto.
  { exfalso. destruct Ht; cbn [length app] in Hn; lia. }
  apply utf8_encode_app_inv in Hb as (bt & bu & Et & Eu & ->).
  rewrite app_length in Hn. rewrite !app_length in *. rewrite <- app_assoc in Hx.
  destruct Ht as [ch H1 H2 H3 H4|e ch He|a b c0 d0 v Hv Hs|a b c0 d0 a' b' c' d' hh ll H H' Hh Hl'].
  - (* characters standing for themselves *)
    destruct (json_chars_split lo u s Hu) as (h & u' & s' & -> & -> & Hh & Hu' & Hhd).
    apply utf8_encode_app_inv in Eu as (bh & bu' & Eh & Eu' & ->).
    assert (Ec : utf8_char ch = Some bt).
    { cbn [utf8_encode] in Et. destruct (utf8_char ch) as [bc|]; [|discriminate].
      apply some_inj in Et. rewrite app_nil_r in Et. congruence. }
    assert (Hfirst : exists b0 br, bt = b0 :: br /\ b2z b0 <> 34 /\ b2z b0 <> 92
      /\ forallb (fun y => 128 <=? b2z y) br = true).
    { pose proof (utf8_char_pos ch bt Ec). destruct (Z_lt_le_dec ch 128) as [Hc|Hc].
      - rewrite utf8_char_ascii in Ec by lia. apply some_inj in Ec. subst bt.
        exists (z2b ch), []. rewrite b2z_z2b, Z.mod_small by lia. auto.
      - destruct (utf8_char_high ch bt Hc Ec) as [Hn0 Hh0].
        destruct bt as [|b0 br]; [congruence|]. cbn [forallb] in Hh0.
        apply andb_prop in Hh0 as [G1 G2]. exists b0, br. repeat split; auto; lia. }
    destruct Hfirst as (b0 & br & -> & N1 & N2 & Hbr).
    cbn [length app] in *. rewrite !app_length in *. rewrite <- app_assoc in Hx.
    destruct (rd_next _ _ _ _ _ o d Hx) as (x1 & i1 & E1 & R1 & A1).
    cbn [string_loop]. unfold bind at 1. rewrite E1. rewrite is_byte_ne by exact N1.
    unfold bind at 1. cbn [ord]. unfold ret at 1.
    destruct (b2z b0 =? 92) eqn:G; [lia|].
    unfold bind at 1. cbn [inp].
    destruct (utf8_encode_head u' bu' QUOTE tail Eu' Hhd ltac:(reflexivity))
      as (q0 & q1 & Eq & Hq).
    assert (R1' : j_rrep c x1 i1 ((br ++ bh) ++ q0 :: q1)).
    { rewrite <- Eq, <- app_assoc. exact R1. }
    assert (Hi1 : (length (br ++ bh) < S (S (length i1)))%nat).
    { destruct R1' as [_ Ra]. rewrite A1 in Ra. rewrite <- Ra.
      rewrite (app_length (br ++ bh)). lia. }
    destruct (run_loop_ok limit (br ++ bh) (S (S (length i1))) [b0] (len + 1) c x1 i1 o d
      q0 q1) as (x2 & i2 & E2 & R2); try assumption; try lia.
    { rewrite forallb_app, Hbr, (utf8_high h bh Hh Eh). reflexivity. }
    { rewrite app_length. unfold lim_ok in *. destruct limit; [lia|exact I]. }
    unfold bind at 1. rewrite E2. cbn iota beta. cbn [app].
    unfold bind at 1. unfold decode_utf8.
    assert (Ech : utf8_encode (ch :: h) = Some (b0 :: br ++ bh)).
    { cbn [utf8_encode]. rewrite Ec, Eh. reflexivity. }
    rewrite (utf8_decode_encode _ _ Ech). unfold ret at 1.
    rewrite app_length in *.
    unfold bind at 1. rewrite check_length_ok.
    + rewrite <- Eq in R2.
      destruct (IH lo u' s' bu' k (acc ++ ch :: h) (len + 1 + Z.of_nat (length br + length bh))
        c x2 i2 o d tail) as (x3 & i3 & E3 & R3); try assumption; try lia.
      * unfold lim_ok in *. destruct limit; [lia|exact I].
      * exists x3, i3. rewrite E3, <- app_assoc. auto.
    + lia.
    + unfold lim_ok in Hl. destruct limit; [lia|exact I].
  - (* two-character escapes *)
    pose proof (escapes_range e ch He) as (H1 & H2 & H3 & H4).
    assert (Ebt : bt = ascii [92; e]) by (apply ascii_encode; [exact Et|cbn [forallb]; lia]).
    subst bt. cbn [ascii map app length] in *.
    destruct (rd_next _ _ _ _ _ o d Hx) as (x1 & i1 & E1 & R1 & _).
    cbn [string_loop]. unfold bind at 1. rewrite E1.
    rewrite is_byte_ne by (cbv; discriminate).
    unfold bind at 1. cbn [ord]. unfold ret at 1.
    change (b2z (z2b 92) =? 92) with true. cbv iota.
    destruct (rd_next _ _ _ _ _ o d R1) as (x2 & i2 & E2 & R2 & _).
    unfold bind at 1. rewrite E2. unfold bind at 1. cbn [ord]. unfold ret at 1.
    rewrite b2z_z2b, Z.mod_small by lia.
    destruct (e =? 117) eqn:G; [lia|]. rewrite H4.
    unfold bind at 1. rewrite check_length_ok.
    + destruct (IH lo u s bu k (acc ++ [ch]) (len + 2) c x2 i2 o d tail) as
        (x3 & i3 & E3 & R3); try assumption; try lia.
      * unfold lim_ok in *. destruct limit; [lia|exact I].
      * exists x3, i3. rewrite E3, <- app_assoc. auto.
    + lia.
    + unfold lim_ok in Hl. destruct limit; [lia|exact I].
  - (* \uXXXX *)
    destruct (py_int16_hex4 _ _ _ _ _ Hv) as (Pi & Hr & Ha). cbn [forallb] in Ha.
    assert (Ebt : bt = ascii (92 :: 117 :: [a; b; c0; d0]))
      by (apply ascii_encode; [exact Et|cbn [forallb]; lia]).
    subst bt.
    change (ascii (92 :: 117 :: [a; b; c0; d0]))
      with (z2b 92 :: z2b 117 :: ascii [a; b; c0; d0]) in *.
    cbn [app length] in *.
    change (length (ascii [a; b; c0; d0])) with 4%nat in *.
    destruct (rd_next _ _ _ _ _ o d Hx) as (x1 & i1 & E1 & R1 & _).
    cbn [string_loop]. unfold bind at 1. rewrite E1.
    rewrite is_byte_ne by (cbv; discriminate).
    unfold bind at 1. cbn [ord]. unfold ret at 1.
    change (b2z (z2b 92) =? 92) with true. cbv iota.
    destruct (rd_next _ _ _ _ _ o d R1) as (x2 & i2 & E2 & R2 & A2).
    unfold bind at 1. rewrite E2. unfold bind at 1. cbn [ord]. unfold ret at 1.
    change (b2z (z2b 117) =? 117) with true. cbv iota.
    destruct (tread4 _ _ _ _ c x2 i2 o d _ A2 R2) as [E3 R3].
    unfold bind at 1. rewrite E3. unfold bind at 1.
    rewrite decode_ascii_ok by (cbn [forallb]; lia). rewrite Pi.
    assert (G1 : is_high v = false) by (unfold is_high, scalar in *; lia).
    assert (G2 : is_low v = false) by (unfold is_low, scalar in *; lia).
    rewrite G1, G2. unfold bind at 1, chr.
    replace ((0 <=? v) && (v <=? 1114111)) with true by lia. unfold ret at 1.
    unfold bind at 1. rewrite check_length_ok.
    + destruct (IH lo u s bu k (acc ++ [v]) (len + 6) c x2 (bu ++ QUOTE :: tail) o d tail) as
        (x4 & i4 & E4 & R4); try assumption; try lia.
      * unfold lim_ok in *. destruct limit; [lia|exact I].
      * exists x4, i4. rewrite E4, <- app_assoc. auto.
    + lia.
    + unfold lim_ok in Hl. destruct limit; [lia|exact I].
  - (* \uXXXX\uXXXX *)
    destruct (py_int16_hex4 _ _ _ _ _ H) as (Pi & Hr & Ha). cbn [forallb] in Ha.
    destruct (py_int16_hex4 _ _ _ _ _ H') as (Pi' & Hr' & Ha'). cbn [forallb] in Ha'.
    assert (Ebt : bt = ascii (92 :: 117 :: [a; b; c0; d0] ++ 92 :: 117 :: [a'; b'; c'; d']))
      by (apply ascii_encode; [exact Et|cbn [app forallb]; lia]).
    subst bt.
    change (ascii (92 :: 117 :: [a; b; c0; d0] ++ 92 :: 117 :: [a'; b'; c'; d']))
      with (z2b 92 :: z2b 117 :: ascii [a; b; c0; d0]
            ++ z2b 92 :: z2b 117 :: ascii [a'; b'; c'; d']) in *.
    cbn [app length] in *. rewrite !app_length in *. cbn [length] in *.
    change (length (ascii [a; b; c0; d0])) with 4%nat in *.
    change (length (ascii [a'; b'; c'; d'])) with 4%nat in *.
    rewrite <- app_assoc in Hx. cbn [app] in Hx.
    destruct (rd_next _ _ _ _ _ o d Hx) as (x1 & i1 & E1 & R1 & _).
    cbn [string_loop]. unfold bind at 1. rewrite E1.
    rewrite is_byte_ne by (cbv; discriminate).
    unfold bind at 1. cbn [ord]. unfold ret at 1.
    change (b2z (z2b 92) =? 92) with true. cbv iota.
    destruct (rd_next _ _ _ _ _ o d R1) as (x2 & i2 & E2 & R2 & A2).
    unfold bind at 1. rewrite E2. unfold bind at 1. cbn [ord]. unfold ret at 1.
    change (b2z (z2b 117) =? 117) with true. cbv iota.
    destruct (tread4 _ _ _ _ c x2 i2 o d _ A2 R2) as [E3 R3].
    unfold bind at 1. rewrite E3. unfold bind at 1.
    rewrite decode_ascii_ok by (cbn [forallb]; lia). rewrite Pi.
    assert (G1 : is_high hh = true) by (unfold is_high; lia).
    rewrite G1. destruct k as [|k]; [lia|].
    destruct (rd_next _ _ _ _ _ o d R3) as (x3 & i3 & E4 & R4 & _).
    cbn [string_loop]. unfold bind at 1. rewrite E4.
    rewrite is_byte_ne by (cbv; discriminate).
    unfold bind at 1. cbn [ord]. unfold ret at 1.
    change (b2z (z2b 92) =? 92) with true. cbv iota.
    destruct (rd_next _ _ _ _ _ o d R4) as (x4 & i4 & E5 & R5 & A5).
    unfold bind at 1. rewrite E5. unfold bind at 1. cbn [ord]. unfold ret at 1.
    change (b2z (z2b 117) =? 117) with true. cbv iota.
    destruct (tread4 _ _ _ _ c x4 i4 o d _ A5 R5) as [E6 R6].
    unfold bind at 1. rewrite E6. unfold bind at 1.
    rewrite decode_ascii_ok by (cbn [forallb]; lia). rewrite Pi'.
    assert (G2 : is_high ll = false) by (unfold is_high; lia).
    assert (G3 : is_low ll = true) by (unfold is_low; lia).
    rewrite G2, G3, to_char_pair by assumption.
    unfold bind at 1. rewrite check_length_ok.
    + destruct (IH lo u s bu k (acc ++ [65536 + (hh - 55296) * 1024 + (ll - 56320)])
        (len + 6 + 6) c x4 (bu ++ QUOTE :: tail) o d tail) as
        (x5 & i5 & E7 & R7); try assumption; try lia.
      * unfold lim_ok in *. destruct limit; [lia|exact I].
      * exists x5, i5. rewrite E7, <- app_assoc. auto.
    + lia.
    + unfold lim_ok in Hl. destruct limit; [lia|exact I].
Qed.

(** Reading any JSON string, in any context, gives what it stands for. *)
Lemma read_json_string lo u s b c x i tail o d : json_chars lo u s ->
  utf8_encode u = Some b -> lim_ok limit (Z.of_nat (length b)) ->
  stack x = c -> ahead x = None ->
  i = sep c ++ quoted b ++ tail ->
  exists x', readJSONString limit false (mkst x i o d) = (Ok s, mkst x' tail o d)
    /\ stack x' = j_nxt c /\ ahead x' = None.
Proof.
  intros Hu Hb Hl Hs Ha ->.
  destruct (RJ_ctx c (quoted b ++ tail) I x (sep c ++ quoted b ++ tail) o d)
    as (x1 & i1 & E1 & R1).
  { split; [exact Hs|]. rewrite Ha. reflexivity. }
  unfold readJSONString. unfold bind at 1. rewrite E1.
  destruct (rd_next (j_nxt c) x1 i1 QUOTE ((b ++ [x22]) ++ tail) o d R1)
    as (x2 & i2 & E2 & R2 & A2).
  unfold readJSONSyntaxChar. unfold bind at 1. unfold bind at 1. rewrite E2, is_byte_same.
  unfold ret at 1. unfold bind at 1. cbn [inp].
  rewrite <- app_assoc in R2.
  destruct (string_loop_rfc (length u) lo u s b (S (S (length i2))) [] 0 (j_nxt c) x2 i2 o d
    tail) as (x3 & i3 & E3 & R3); try assumption; try lia.
  - destruct R2 as [_ Ra]. rewrite A2 in Ra. rewrite <- Ra. rewrite !app_length. lia.
  - exists x3. destruct R3 as [[Hs3 Hi3] A3]. rewrite A3 in Hi3. subst i3. auto.
Qed.

End Read.

(** * What the writer writes *)

(** Characters below 32 that have no two-character escape. *)
Definition raw_control (c : Z) : bool :=
  (c <? 32) && negb ((c =? 8) || (c =? 9) || (c =? 10) || (c =? 12) || (c =? 13)).

Lemma escape_pair c e : escape_char c = Some e -> In (e, c) two_char_escapes.
Proof.
  unfold escape_char.
  repeat match goal with |- context [?a =? ?b] => destruct (a =? b) eqn:? end;
    intros H; try discriminate; injection H as <-;
    match goal with H : (c =? _) = true |- _ => apply Z.eqb_eq in H; subst c end;
    cbn; tauto.
Qed.

Lemma escape_json_chars s : Forall (fun c => scalar c = true) s ->
  json_chars 0 (escape s) s
  /\ (forallb (fun c => negb (raw_control c)) s = true -> json_chars 32 (escape s) s).
Proof.
  induction 1 as [|c s Hc Hs [IH0 IH32]].
  - split; constructor.
  - change (escape (c :: s)) with
      (match escape_char c with Some e => [92; e] | None => [c] end ++ escape s).
    destruct (escape_char c) as [e|] eqn:E.
    + apply escape_pair in E. split.
      * constructor; [constructor; exact E|exact IH0].
      * intros H. cbn [forallb] in H. apply andb_prop in H as [_ H].
        constructor; [constructor; exact E|apply IH32, H].
    + pose proof (escape_char_none c E) as [N1 N2]. split.
      * constructor; [|exact IH0]. constructor; try assumption.
        unfold scalar in Hc. lia.
      * intros H. cbn [forallb] in H. apply andb_prop in H as [H1 H].
        constructor; [|apply IH32, H]. constructor; try assumption.
        destruct (Z_lt_le_dec c 32) as [Hl|Hl]; [|exact Hl]. exfalso.
        unfold raw_control in H1. unfold escape_char in E.
        repeat match goal with
               | E : context [if ?a =? ?b then _ else _] |- _ =>
                   destruct (a =? b) eqn:?; [discriminate E|]
               end. lia.
Qed.

Lemma json_chars_ge u s c : json_chars 32 u s -> In c u -> 32 <= c.
Proof.
  induction 1 as [|t v u s Ht _ IH]; [contradiction|].
  intros Hin. apply in_app_or in Hin as [Hin|Hin]; [|apply IH, Hin].
  destruct Ht as [ch H1 H2 H3 H4|e ch He|a b c0 d0 w Hw Hs|a b c0 d0 a' b' c' d' hh ll H H' Hh Hl].
  - destruct Hin as [<-|[]]. exact H1.
  - cbn in He. destruct Hin as [<-|[<-|[]]]; [lia|].
    repeat (destruct He as [He|He]; [injection He as <- _; lia|]). destruct He.
  - apply hex4_inv in Hw as (x & y & z & w' & Ha & Hb & Hc & Hd & _).
    apply hex_digit_range in Ha, Hb, Hc, Hd. cbn in Hin.
    repeat (destruct Hin as [<-|Hin]; [lia|]). destruct Hin.
  - apply hex4_inv in H as (x & y & z & w' & Ha & Hb & Hc & Hd & _).
    apply hex4_inv in H' as (x1 & y1 & z1 & w1 & Ha1 & Hb1 & Hc1 & Hd1 & _).
    apply hex_digit_range in Ha, Hb, Hc, Hd, Ha1, Hb1, Hc1, Hd1.
    cbn in Hin. repeat (destruct Hin as [<-|Hin]; [lia|]). destruct Hin.
Qed.

Lemma raw_control_in c s : In c s -> raw_control c = true -> In c (escape s).
Proof.
  intros Hin Hr. unfold escape. apply in_flat_map. exists c. split; [exact Hin|].
  replace (escape_char c) with (@None Z); [left; reflexivity|].
  unfold raw_control in Hr. unfold escape_char.
  repeat match goal with |- context [?a =? ?b] => destruct (a =? b) eqn:?; [lia|] end.
  reflexivity.
Qed.

Lemma raw_control_not_json c s s' : In c s -> raw_control c = true ->
  ~ json_string (34 :: escape s ++ [34]) s'.
Proof.
  intros Hin Hr (u & Hu & E). injection E as E. apply app_inj_tail in E as [E _].
  subst u. pose proof (json_chars_ge _ _ c Hu (raw_control_in c s Hin Hr)).
  unfold raw_control in Hr. lia.
Qed.

(** * Base64 without padding *)

Definition unpad (l : list Z) : list Z := filter (fun c => negb (c =? 61)) l.

Definition pad (l : list Z) : list Z :=
  let m := Z.of_nat (length l) mod 4 in
  if m =? 0 then l else l ++ repeat 61 (Z.to_nat (4 - m)).

Lemma pad_cons4 a b c d l : pad (a :: b :: c :: d :: l) = a :: b :: c :: d :: pad l.
Proof.
  unfold pad. cbn [length].
  replace (Z.of_nat (S (S (S (S (length l)))))) with (Z.of_nat (length l) + 1 * 4) by lia.
  rewrite Z.mod_add by lia. destruct (_ =? 0); reflexivity.
Qed.

Lemma unpad_char v l : 0 <= v < 64 -> unpad (b64_char v :: l) = b64_char v :: unpad l.
Proof.
  intros H. unfold unpad. cbn [filter]. pose proof (b64_char_range v H).
  destruct (b64_char v =? 61) eqn:E; [lia|reflexivity].
Qed.

Lemma pad_unpad b : pad (unpad (b64encode b)) = b64encode b.
Proof.
  induction b as [|x|x y|x y z r IH] using list_ind3; cbn [b64encode].
  - reflexivity.
  - pose proof (b2z_range x). rewrite !unpad_char by dm. reflexivity.
  - pose proof (b2z_range x). pose proof (b2z_range y).
    rewrite !unpad_char by dm. reflexivity.
  - pose proof (b2z_range x). pose proof (b2z_range y). pose proof (b2z_range z).
    rewrite !unpad_char by dm. rewrite pad_cons4, IH. reflexivity.
Qed.

Lemma pad_encode b : pad (b64encode b) = b64encode b.
Proof.
  unfold pad. rewrite b64encode_length, Z.mul_comm, Z.mod_mul by lia. reflexivity.
Qed.

Lemma read_base64_text limit t b c x tail o d : forallb plain_char t = true ->
  pad t = b64encode b -> lim_ok limit (Z.of_nat (length t)) ->
  stack x = c -> ahead x = None ->
  exists x', readJSONBase64 limit (mkst x (sep c ++ quoted (map z2b t) ++ tail) o d)
    = (Ok b, mkst x' tail o d) /\ stack x' = j_nxt c /\ ahead x' = None.
Proof.
  intros Ht Hp Hl Hs Ha.
  assert (Hsc : Forall (fun c => scalar c = true) t).
  { apply Forall_forall. intros ch Hc. rewrite forallb_forall in Ht.
    specialize (Ht ch Hc). unfold plain_char in Ht. unfold scalar. lia. }
  destruct (escape_json_chars t Hsc) as [Hj _].
  destruct (etext_plain t Ht) as [Ea Et].
  assert (Ee : utf8_encode (escape t) = Some (ascii t)).
  { unfold etext in Et. destruct (utf8_encode (escape t)) eqn:E; [congruence|].
    destruct (escape_encodes t _ Ea) as (e & He & _). congruence. }
  destruct (read_json_string limit 0 (escape t) t (ascii t) c x
    (sep c ++ quoted (ascii t) ++ tail) tail o d Hj Ee) as (x' & E & H1 & H2); auto.
  { unfold ascii. rewrite map_length. exact Hl. }
  exists x'. unfold readJSONBase64, bind. fold (ascii t). rewrite E.
  change (if Z.of_nat (length t) mod 4 =? 0 then t
          else t ++ repeat 61 (Z.to_nat (4 - Z.of_nat (length t) mod 4))) with (pad t).
  cbv zeta. 
  change (if Z.of_nat (length t) mod 4 =? 0 then t
          else t ++ repeat 61 (Z.to_nat (4 - Z.of_nat (length t) mod 4))) with (pad t).
  rewrite Hp, b64decode_encode. auto.
Qed.

Lemma unpad_plain t : forallb plain_char t = true -> forallb plain_char (unpad t) = true.
Proof.
  intros H. rewrite forallb_forall in *. intros c Hc. apply filter_In in Hc as [Hc _]. auto.
Qed.

Lemma unpad_length t : (length (unpad t) <= length t)%nat.
Proof.
  unfold unpad. induction t as [|c t IH]; [apply Nat.le_refl|]. cbn [filter].
  destruct (negb (c =? 61)); cbn [length]; lia.
Qed.

(** Writing a string, from any context. *)
Lemma write_string_text s b c x i o d : utf8_encode s = Some b -> stack x = c ->
  exists x' t, utf8_encode (34 :: escape s ++ [34]) = Some t
    /\ writeJSONString s (mkst x i o d) = (Ok tt, mkst x' i (o ++ sep c ++ t) d)
    /\ stack x' = j_nxt c.
Proof.
  intros H Hs. destruct (WJ_string c s b H x i o d Hs) as (x' & E & R).
  exists x', (jstr s). split; [eapply utf8_quoted, H|]. split; [exact E|exact R].
Qed.

Lemma string_round_trip limit s b c x x2 i o d tail i2 o2 d2 : utf8_encode s = Some b ->
  lim_ok limit (2 * Z.of_nat (length b)) -> stack x = c -> stack x2 = c -> ahead x2 = None ->
  exists x' x2' bs,
    writeJSONString s (mkst x i o d) = (Ok tt, mkst x' i (o ++ bs) d)
    /\ stack x' = j_nxt c
    /\ (i2 = bs ++ tail ->
        readJSONString limit false (mkst x2 i2 o2 d2) = (Ok s, mkst x2' tail o2 d2)
        /\ stack x2' = j_nxt c /\ ahead x2' = None).
Proof.
  intros Hb Hl Hs Hs2 Ha2.
  destruct (WJ_string c s b Hb x i o d Hs) as (x' & E & R).
  destruct (escape_encodes s b Hb) as (e & He & Hle).
  pose proof (proj1 (utf8_encode_scalar s) (ex_intro _ b Hb)) as Hsc.
  destruct (escape_json_chars s Hsc) as [Hj _].
  assert (Hl' : lim_ok limit (Z.of_nat (length e))).
  { unfold lim_ok in *. destruct limit; [lia|exact I]. }
  destruct (read_json_string limit 0 (escape s) s e c x2
    (sep c ++ quoted e ++ tail) tail o2 d2 Hj He Hl' Hs2 Ha2 eq_refl) as (x2' & E2 & H1 & H2).
  exists x', x2', (sep c ++ jstr s). split; [exact E|]. split; [exact R|].
  intros ->. unfold jstr, etext. rewrite He, <- app_assoc. split; [exact E2|auto].
Qed.
