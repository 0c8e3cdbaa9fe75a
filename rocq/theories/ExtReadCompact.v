(** The primitives of the C compact decoder read the compact wire format. *)
From Coq Require Import ZArith List Bool Lia.
From Coq Require Import Init.Byte.
From Coq Require Import ZifyBool ZifyNat ZifyN.
From Verif Require Import Base Bytes BytesFacts Utf8 Utf8Facts Proto Spec Laws
  RoundTrip Binary BinaryLaws CompactFacts CompactLaws SpecCompact WireFacts
  Ext ExtFacts ExtRead ExtReadGen ExtReadBinary.
Import ListNotations.
Open Scope Z_scope.

(** * Varints and zigzag *)

Lemma cread_varint_ok w k : forall n shift val tail (x : crd) o d,
  0 <= n < 128 ^ Z.of_nat k -> (0 < k)%nat -> 0 <= shift ->
  0 <= val < 2 ^ shift -> val + n * 2 ^ shift < 2 ^ (8 * Z.of_nat w) ->
  cread_varint k w shift val (mkst x (uleb k n ++ tail) o d)
  = (Ok (val + n * 2 ^ shift), mkst x tail o d).
Proof.
  induction k as [|k IH]; intros n shift val tail x o d Hn Hk Hs Hv Hb; [lia|].
  assert (H2 : 0 < 2 ^ shift) by (apply Z.pow_pos_nonneg; lia).
  cbn [cread_varint uleb]. unfold bind. destruct (n <? 128) eqn:E.
  - cbn [app]. rewrite readU8_ok by lia.
    replace (Z.land n 128 =? 0) with true.
    2:{ symmetry. apply Z.eqb_eq. apply Z.bits_inj'. intros i Hi.
        rewrite Z.land_spec, Z.bits_0. change 128 with (2 ^ 7).
        rewrite Z.pow2_bits_eqb by lia. destruct (Z.eqb_spec 7 i) as [<-|];
          [|apply andb_false_r].
        rewrite Z.testbit_eqb by lia. change (2 ^ 7) with 128.
        rewrite Z.div_small by lia. reflexivity. }
    cbn [negb]. unfold ret. rewrite lor_add by assumption.
    rewrite uN_small by nia. reflexivity.
  - cbn [app].
    pose proof (Z.mod_pos_bound n 128 ltac:(lia)) as Hm.
    rewrite readU8_ok by lia.
    replace (Z.land (128 + n mod 128) 128 =? 0) with false.
    2:{ symmetry. apply Z.eqb_neq. intros K.
        assert (T : Z.testbit (Z.land (128 + n mod 128) 128) 7 = false)
          by (rewrite K; reflexivity).
        rewrite Z.land_spec in T. change 128 with (2 ^ 7) in T at 3.
        rewrite Z.pow2_bits_true, andb_true_r in T by lia.
        rewrite Z.testbit_eqb in T by lia. change (2 ^ 7) with 128 in T.
        replace ((128 + n mod 128) / 128) with 1 in T; [discriminate T|].
        clear - Hm. Z.div_mod_to_equations. lia. }
    cbn [negb]. rewrite land127.
    replace ((128 + n mod 128) mod 128) with (n mod 128).
    2:{ clear - Hm. Z.div_mod_to_equations. lia. }
    rewrite lor_add by assumption.
    pose proof (Z.div_mod n 128 ltac:(lia)) as Hdm.
    assert (0 <= n / 128) by (apply Z.div_pos; lia).
    assert (Hq : 2 ^ (shift + 7) = 128 * 2 ^ shift)
      by (rewrite Z.pow_add_r by lia; change (2 ^ 7) with 128; lia).
    rewrite uN_small by nia.
    rewrite Nat2Z.inj_succ, Z.pow_succ_r in Hn by lia.
    assert (n / 128 < 128 ^ Z.of_nat k) by (apply Z.div_lt_upper_bound; lia).
    destruct k as [|k].
    { change (128 ^ Z.of_nat 0) with 1 in *. lia. }
    rewrite IH; try lia; rewrite ?Hq; try nia.
    f_equal. f_equal. rewrite Hdm at 3. ring.
Qed.

Lemma varint_read w k n tail (x : crd) o d :
  0 <= n < 2 ^ (8 * Z.of_nat w) -> n < 128 ^ Z.of_nat k -> (0 < k <= 10)%nat ->
  cread_varint k w 0 0 (mkst x (varint n ++ tail) o d)
  = (Ok n, mkst x tail o d).
Proof.
  intros H1 H2 Hk. unfold varint. rewrite (uleb_mono k) by lia.
  rewrite cread_varint_ok; rewrite ?Z.pow_0_r; try lia.
  do 2 f_equal. lia.
Qed.

Lemma uN_lxor w a b : uN w (Z.lxor a (uN w b)) = uN w (Z.lxor a b).
Proof.
  unfold uN. apply Z.bits_inj'. intros i Hi.
  destruct (Z.ltb_spec i (8 * Z.of_nat w)) as [L|G].
  - rewrite !Z.mod_pow2_bits_low, !Z.lxor_spec, Z.mod_pow2_bits_low by lia.
    reflexivity.
  - rewrite !Z.mod_pow2_bits_high by lia. reflexivity.
Qed.

Lemma cfromZigZag_ok w z : (0 < w)%nat -> in_signed w z ->
  cfromZigZag w (zigzag z) = z.
Proof.
  intros Hw Hz. unfold cfromZigZag. rewrite shiftr_div by lia. change (2 ^ 1) with 2.
  rewrite land1.
  assert (H01 : forall b, 0 <= b <= 1 -> sN w b = b).
  { intros b Hb. apply sN_id; [assumption|]. unfold in_signed.
    assert (1 < 2 ^ (8 * Z.of_nat w - 1)).
    { apply Z.lt_le_trans with (2 ^ 7); [reflexivity|]. apply Z.pow_le_mono_r; lia. }
    lia. }
  rewrite (H01 (zigzag z mod 2)) by (pose proof (Z.mod_pos_bound (zigzag z) 2 eq_refl); lia).
  rewrite <- (sN_uN w (Z.lxor _ _)), uN_lxor, sN_uN.
  unfold zigzag. destruct (0 <=? z) eqn:E.
  - replace ((2 * z) mod 2) with 0 by lia. replace (2 * z / 2) with z by lia.
    rewrite Z.lxor_0_r. apply sN_id; assumption.
  - replace ((-2 * z - 1) mod 2) with 1 by lia.
    replace ((-2 * z - 1) / 2) with (- z - 1) by lia.
    rewrite Z.lxor_m1_r. unfold Z.lnot. replace (Z.pred (- (- z - 1))) with z by lia.
    apply sN_id; assumption.
Qed.

(** * Positions *)

Record xpos := mkxpos { q_tags : list Z; q_pend : option bool }.

Definition x_rrep (c : xpos) (x : crd) (i rest : list byte) : Prop :=
  i = rest /\ tags x = q_tags c /\ rbool x = q_pend c.
Definition x_nxt (c : xpos) : xpos := mkxpos (q_tags c) None.
Definition x_inS (c : xpos) : xpos := mkxpos (0 :: q_tags c) (q_pend c).
Definition x_inF (f : xpos) (id : Z) (ob : option bool) : xpos :=
  mkxpos (id :: tl (q_tags f)) ob.
Definition x_aft (f : xpos) (id : Z) : xpos := mkxpos (id :: tl (q_tags f)) None.
Definition x_vpos (c : xpos) : Prop := q_pend c = None.
Definition x_bpos (c : xpos) (b : bool) : Prop :=
  q_pend c = None \/ q_pend c = Some b.
Definition x_fpos (c f : xpos) : Prop :=
  q_pend f = None /\ exists l, q_tags f = l :: q_tags c.

Definition xe_base (c : xpos) (t : ty) (v : value) : list byte :=
  match t, v with
  | TBool, VBool b =>
      match q_pend c with Some _ => [] | None => if b then [x01] else [x02] end
  | TByte, VInt z => [z2b z]
  | TI16, VInt z | TI32, VInt z | TI64, VInt z => varint (zigzag z)
  | TDouble, VDouble d => le_bytes 8 d
  | TString, VStr s =>
      match utf8_encode s with
      | Some b => varint (Z.of_nat (length b)) ++ b
      | None => []
      end
  | TBinary, VBin b => varint (Z.of_nat (length b)) ++ b
  | TUuid, VUuid b => b
  | _, _ => []
  end.

Definition xe_fbeg (f : xpos) (id t : Z) (ob : option bool) : list byte :=
  sc_field (hd 0 (q_tags f)) id
    (match ob with Some true => 1 | Some false => 2 | None => ctc t end).

Lemma x_getTType_ok t (s : st crd) : getTType (sc_type t) s = (Ok (code t), s).
Proof. destruct t; reflexivity. Qed.

Lemma hi_nibble b : 0 <= b < 256 -> Z.shiftr (Z.land b 240) 4 = b / 16.
Proof.
  intros H. rewrite Z.shiftr_land. change (Z.shiftr 240 4) with 15.
  rewrite land15, shiftr_div by lia. change (2 ^ 4) with 16.
  apply Z.mod_small. lia.
Qed.

Section C.
Variable big : bool.
Variables sl cl : option Z.
Variables SL CL : Z.
Hypothesis Hlim : x_limits sl cl SL CL.
Notation D := (dcompact big sl cl).

Lemma p32 : 2 ^ (8 * Z.of_nat 4) = 4294967296. Proof. reflexivity. Qed.
Lemma p16 : 2 ^ (8 * Z.of_nat 2) = 65536. Proof. reflexivity. Qed.
Lemma p64 : 2 ^ (8 * Z.of_nat 8) = 18446744073709551616. Proof. reflexivity. Qed.
Lemma q3 : 128 ^ Z.of_nat 3 = 2097152. Proof. reflexivity. Qed.
Lemma q5 : 128 ^ Z.of_nat 5 = 34359738368. Proof. reflexivity. Qed.
Lemma q10 : 128 ^ Z.of_nat 10 = 1180591620717411303424. Proof. reflexivity. Qed.

Lemma x_size n tail x o d : 0 <= n <= 2147483647 ->
  cread_varint 5 4 0 0 (mkst x (varint n ++ tail) o d) = (Ok n, mkst x tail o d).
Proof. intros H. apply varint_read; rewrite ?p32, ?q5; lia. Qed.

Lemma xc_i16 z tail x o d : -32768 <= z <= 32767 ->
  ec_readI16 (mkst x (varint (zigzag z) ++ tail) o d) = (Ok z, mkst x tail o d).
Proof.
  intros H. unfold ec_readI16, bind. rewrite varint_read.
  - unfold ret. rewrite cfromZigZag_ok by (lia || apply in2; lia). reflexivity.
  - rewrite p16. unfold zigzag. destruct (0 <=? z) eqn:E; lia.
  - rewrite q3. unfold zigzag. destruct (0 <=? z) eqn:E; lia.
  - lia.
Qed.

Lemma xc_i32 z tail x o d : -2147483648 <= z <= 2147483647 ->
  ec_readI32 (mkst x (varint (zigzag z) ++ tail) o d) = (Ok z, mkst x tail o d).
Proof.
  intros H. unfold ec_readI32, bind. rewrite varint_read.
  - unfold ret. rewrite cfromZigZag_ok by (lia || apply in4; lia). reflexivity.
  - rewrite p32. unfold zigzag. destruct (0 <=? z) eqn:E; lia.
  - rewrite q5. unfold zigzag. destruct (0 <=? z) eqn:E; lia.
  - lia.
Qed.

Lemma xc_i64 z tail x o d : -9223372036854775808 <= z <= 9223372036854775807 ->
  ec_readI64 (mkst x (varint (zigzag z) ++ tail) o d) = (Ok z, mkst x tail o d).
Proof.
  intros H. unfold ec_readI64, bind. rewrite varint_read.
  - unfold ret. rewrite cfromZigZag_ok by (lia || apply in8; lia). reflexivity.
  - rewrite p64. unfold zigzag. destruct (0 <=? z) eqn:E; lia.
  - rewrite q10. unfold zigzag. destruct (0 <=? z) eqn:E; lia.
  - lia.
Qed.

Lemma xc_string b tail x o d : len_le b SL = true ->
  ec_readString sl (mkst x ((varint (Z.of_nat (length b)) ++ b) ++ tail) o d)
  = (Ok b, mkst x tail o d).
Proof.
  intros H. unfold len_le in H. destruct Hlim as (H1 & _ & H2 & _).
  unfold ec_readString. rewrite <- app_assoc. unfold bind at 1.
  rewrite x_size by lia.
  unfold bind. rewrite (check_limit_ok sl _ SL) by (assumption || lia).
  rewrite s32_id by lia.
  destruct (_ =? 0) eqn:E.
  - destruct b; [reflexivity|]. cbn [length] in E. lia.
  - apply readBytes_n. reflexivity.
Qed.

Lemma xc_skipString b tail x o d : len_le b SL = true ->
  ec_skipString (mkst x ((varint (Z.of_nat (length b)) ++ b) ++ tail) o d)
  = (Ok tt, mkst x tail o d).
Proof.
  intros H. unfold len_le in H. destruct Hlim as (H1 & _).
  unfold ec_skipString. rewrite <- app_assoc. unfold bind at 1.
  rewrite x_size by lia. rewrite s32_id by lia. apply skip_n. reflexivity.
Qed.

Lemma xc_bool c b tail x o d : x_bpos c b -> x_rrep c x
    (xe_base c TBool (VBool b) ++ tail) (xe_base c TBool (VBool b) ++ tail) ->
  ec_readBool (mkst x (xe_base c TBool (VBool b) ++ tail) o d)
  = (Ok b, mkst (mkcrd (q_tags c) None) tail o d).
Proof.
  intros Hp (_ & Ht & Hb). destruct x as [tg rb]. cbn [tags rbool] in *. subst tg rb.
  unfold ec_readBool, get_px, set_px, bind. cbn [px inp out depth rbool tags xe_base].
  destruct Hp as [->| ->].
  - cbn [app]. destruct b; cbn [app]; rewrite readU8_b; reflexivity.
  - reflexivity.
Qed.

Lemma xrc_base c t v : (match v with VBool b => x_bpos c b | _ => x_vpos c end) ->
  base_ty t = true -> base_ok SL t v = true ->
  Rd x_rrep anyT c (x_nxt c) (xe_base c t v) (read_base (proto_of D) t) v.
Proof.
  intros Hp Hb Hv tail _ x i o d Hx. assert (Hi := proj1 Hx). subst i.
  exists (mkcrd (q_tags c) None), tail. split; [|repeat split].
  rewrite read_base_of by assumption.
  assert (Hn : x_vpos c -> x = mkcrd (q_tags c) None).
  { intros E. destruct Hx as (_ & Ht & Hr). destruct x as [tg rb]. cbn [tags rbool] in *.
    rewrite E in Hr. subst. reflexivity. }
  destruct t; try discriminate Hb; destruct v; try discriminate Hv;
    cbn [decode_base base_okd] in *; cbn [dcompact d_readBool d_readI8
      d_readI16 d_readI32 d_readI64 d_readDouble d_readString d_readUuid];
    try (rewrite (Hn Hp) in *; clear Hn); unfold bind at 1;
    try (cbn [xe_base]).
  - pose proof (xc_bool c b tail x o d Hp Hx) as E. cbn [xe_base] in E.
    rewrite E. reflexivity.
  - unfold ec_readI8, bind. cbn [app]. rewrite readU8_b, b2z_z2b. unfold ret.
    change 256 with (2 ^ (8 * Z.of_nat 1)). fold (uN 1 z).
    rewrite sN_uN, sN_id; [reflexivity|lia|apply in1, between_spec, Hv].
  - rewrite xc_i16 by (apply between_spec, Hv). reflexivity.
  - rewrite xc_i32 by (apply between_spec, Hv). reflexivity.
  - rewrite xc_i64 by (apply between_spec, Hv). reflexivity.
  - unfold ec_readDouble, bind.
    rewrite readBytes_n by (rewrite le_bytes_length; reflexivity). unfold ret.
    rewrite of_memory_le8, sN_uN, uN_sN, uN_small
      by (lia || apply between_spec in Hv; rewrite p64; lia).
    reflexivity.
  - destruct (utf8_encode s) as [b|] eqn:E; [|discriminate].
    rewrite xc_string by assumption. unfold ret.
    rewrite (utf8_replace_valid b s (utf8_decode_encode s b E)). reflexivity.
  - rewrite xc_string by assumption. reflexivity.
  - unfold ec_readUuid. rewrite readBytes_n by lia. reflexivity.
Qed.

Lemma xsc_base c t v : (match v with VBool b => x_bpos c b | _ => x_vpos c end) ->
  base_ty t = true -> base_ok SL t v = true ->
  Rd x_rrep anyT c (x_nxt c) (xe_base c t v) (sk_base D t) tt.
Proof.
  intros Hp Hb Hv tail _ x i o d Hx. assert (Hi := proj1 Hx). subst i.
  exists (mkcrd (q_tags c) None), tail. split; [|repeat split].
  assert (Hn : x_vpos c -> x = mkcrd (q_tags c) None).
  { intros E. destruct Hx as (_ & Ht & Hr). destruct x as [tg rb]. cbn [tags rbool] in *.
    rewrite E in Hr. subst. reflexivity. }
  destruct t; try discriminate Hb; destruct v; try discriminate Hv;
    cbn [sk_base base_okd] in *; cbn [dcompact d_skipBool d_skipByte
      d_skipI16 d_skipI32 d_skipI64 d_skipDouble d_skipString d_skipUuid];
    try (rewrite (Hn Hp) in *; clear Hn); cbn [xe_base];
    try (apply skip_n; rewrite ?le_bytes_length; cbn [length]; lia).
  - unfold bind. pose proof (xc_bool c b tail x o d Hp Hx) as E.
    cbn [xe_base] in E. rewrite E. reflexivity.
  - unfold bind. rewrite xc_i16 by (apply between_spec, Hv). reflexivity.
  - unfold bind. rewrite xc_i32 by (apply between_spec, Hv). reflexivity.
  - unfold bind. rewrite xc_i64 by (apply between_spec, Hv). reflexivity.
  - destruct (utf8_encode s) as [b|]; [|discriminate]. apply xc_skipString, Hv.
  - apply xc_skipString, Hv.
Qed.

Lemma xrc_lbeg c t n : x_vpos c -> 0 <= n <= CL ->
  Rd x_rrep anyT c (x_nxt c) (sc_list (ctc (code t)) n)
     (ec_readListBegin cl) (code t, n).
Proof.
  intros Hp Hn tail _ x i o d (-> & Ht & Hr). pose proof (CompactLaws.sc_type_range t).
  destruct Hlim as (_ & Hc & _ & H2).
  exists x, tail. split; [|repeat split; [exact Ht|rewrite Hr; exact Hp]].
  rewrite ctc_code. unfold ec_readListBegin, sc_list.
  destruct (n <=? 14) eqn:E; cbn [app]; unfold bind at 1;
    rewrite readU8_ok by lia.
  - rewrite land15. replace ((16 * n + sc_type t) mod 16) with (sc_type t).
    2:{ rewrite Z.add_comm, Z.mul_comm, Z.mod_add by lia. symmetry.
        apply Z.mod_small. lia. }
    unfold bind at 1. rewrite x_getTType_ok.
    rewrite shiftr_div, land15 by lia. change (2 ^ 4) with 16.
    replace ((16 * n + sc_type t) / 16 mod 16) with n.
    2:{ rewrite Z.add_comm, Z.mul_comm, Z.div_add, Z.div_small by lia.
        symmetry. apply Z.mod_small. lia. }
    destruct (n =? 15) eqn:E15; [lia|]. unfold bind, ret.
    rewrite (check_limit_ok cl _ CL) by (assumption || lia).
    rewrite s32_id by lia. reflexivity.
  - rewrite land15. replace ((240 + sc_type t) mod 16) with (sc_type t).
    2:{ change 240 with (15 * 16). rewrite Z.add_comm, Z.mod_add by lia. symmetry.
        apply Z.mod_small. lia. }
    unfold bind at 1. rewrite x_getTType_ok.
    rewrite shiftr_div, land15 by lia. change (2 ^ 4) with 16.
    replace ((240 + sc_type t) / 16 mod 16) with 15.
    2:{ change 240 with (15 * 16). rewrite Z.add_comm, Z.div_add, Z.div_small by lia.
        reflexivity. }
    change (15 =? 15) with true. cbv iota. unfold bind, ret.
    rewrite x_size by lia.
    rewrite (check_limit_ok cl _ CL) by (assumption || lia).
    rewrite s32_id by lia. reflexivity.
Qed.

Lemma xrc_mbeg c k t n : x_vpos c -> 0 <= n <= CL ->
  Rd x_rrep anyT c (x_nxt c) (sc_map (ctc (code k)) (ctc (code t)) n)
     (ec_readMapBegin cl) (c_mret (code k) (code t) n).
Proof.
  intros Hp Hn tail _ x i o d (-> & Ht & Hr). pose proof (CompactLaws.sc_type_range t).
  pose proof (CompactLaws.sc_type_range k).
  destruct Hlim as (_ & Hc & _ & H2).
  exists x, tail. split; [|repeat split; [exact Ht|rewrite Hr; exact Hp]].
  rewrite !ctc_code. unfold ec_readMapBegin, sc_map, c_mret.
  destruct (n =? 0) eqn:E.
  - change [x00] with (varint 0). unfold bind at 1. rewrite x_size by lia.
    unfold bind at 1. rewrite (check_limit_ok cl _ CL) by (assumption || lia).
    reflexivity.
  - rewrite <- app_assoc. unfold bind at 1. rewrite x_size by lia.
    unfold bind at 1. rewrite (check_limit_ok cl _ CL) by (assumption || lia).
    rewrite E. cbn [negb app]. unfold bind at 1. rewrite readU8_ok by lia.
    rewrite shiftr_div, land15 by lia. change (2 ^ 4) with 16.
    replace ((16 * sc_type k + sc_type t) / 16) with (sc_type k).
    2:{ rewrite Z.add_comm, Z.mul_comm, Z.div_add, Z.div_small by lia. reflexivity. }
    replace ((16 * sc_type k + sc_type t) mod 16) with (sc_type t).
    2:{ rewrite Z.add_comm, Z.mul_comm, Z.mod_add by lia. symmetry.
        apply Z.mod_small. lia. }
    unfold bind at 1. rewrite x_getTType_ok.
    unfold bind at 1. rewrite x_getTType_ok.
    rewrite s32_id by lia. reflexivity.
Qed.

Lemma xrc_fbeg c f id t ob : x_fpos c f -> between (-32768) 32767 id = true ->
  (t = TBool <-> ob <> None) ->
  Rd x_rrep anyT f (x_inF f id ob) (xe_fbeg f id (code t) ob)
     ec_readFieldBegin (code t, id).
Proof.
  intros (Hfp & l & Hft) Hid Hob tail _ [tg rb] i o d (-> & Ht & Hr).
  cbn [tags rbool] in *. rewrite Hft in Ht. rewrite Hfp in Hr. subst tg rb.
  apply between_spec in Hid.
  exists (mkcrd (id :: q_tags c) ob), tail.
  split; [|unfold x_rrep, x_inF; cbn [tags rbool q_tags q_pend]; rewrite Hft; auto].
  unfold xe_fbeg. rewrite Hft. cbn [hd].
  set (tc := match ob with Some true => 1 | Some false => 2 | None => ctc (code t) end).
  assert (Htc : 1 <= tc <= 13 /\ (forall s : st crd, getTType tc s = (Ok (code t), s))
    /\ (if (tc =? 2) || (tc =? 1) then Some (tc =? 1) else None) = ob).
  { unfold tc. destruct ob as [[|]|].
    - rewrite (proj2 Hob) by discriminate. split; [lia|split; reflexivity].
    - rewrite (proj2 Hob) by discriminate. split; [lia|split; reflexivity].
    - rewrite ctc_code. pose proof (CompactLaws.sc_type_range t). split; [assumption|].
      split; [intros; apply x_getTType_ok|].
      destruct t; try reflexivity. exfalso. apply (proj1 Hob eq_refl). reflexivity. }
  destruct Htc as (Hr1 & Hr2 & Hr3). clearbody tc.
  unfold ec_readFieldBegin, sc_field. rewrite <- Hr3.
  destruct ((1 <=? id - l) && (id - l <=? 15)) eqn:E; cbn [app]; unfold bind at 1;
    rewrite readU8_ok by lia; cbv zeta.
  - rewrite land15, hi_nibble by lia.
    replace ((16 * (id - l) + tc) mod 16) with tc.
    2:{ rewrite Z.add_comm, Z.mul_comm, Z.mod_add by lia. symmetry.
        apply Z.mod_small. lia. }
    replace ((16 * (id - l) + tc) / 16) with (id - l).
    2:{ rewrite Z.add_comm, Z.mul_comm, Z.div_add, Z.div_small by lia. reflexivity. }
    unfold bind at 1. rewrite Hr2. rewrite code_not_stop.
    unfold bind, get_px, set_px. cbn [px inp out depth tags rbool hd tl].
    destruct (id - l =? 0) eqn:E0; [lia|]. cbn [negb]. unfold ret.
    replace (l + (id - l)) with id by lia.
    rewrite sN_id by (lia || apply in2; lia). reflexivity.
  - rewrite land15, hi_nibble by lia.
    rewrite (Z.mod_small tc), (Z.div_small tc) by lia.
    unfold bind at 1. rewrite Hr2. rewrite code_not_stop.
    unfold bind, get_px, set_px. cbn [px inp out depth tags rbool hd tl].
    change (0 =? 0) with true. cbn [negb].
    rewrite xc_i16 by lia. reflexivity.
Qed.

Definition xcompact_laws : laws (proto_of D) SL CL.
Proof.
  unshelve refine (mklaws crd (proto_of D) SL CL xpos
    (fun _ _ => False) x_rrep (fun _ => True) (fun _ => true) (fun _ => true) id16
    x_nxt x_inS x_inF x_aft (fun c => c) x_nxt x_nxt
    x_vpos x_vpos x_vpos x_bpos x_fpos
    (fun c e => x_vpos c /\ e = x_nxt c) (fun c e => x_vpos c /\ e = x_nxt c)
    xe_base (fun _ => []) xe_fbeg
    [] [x00] []
    (fun _ t n => sc_list (ctc t) n) []
    (fun _ k t n => sc_map (ctc k) (ctc t) n) []
    c_mret
    _ _ _ _ _ _ _ _ _ _ _ _ _ _ _
    _ _ _ _ _ _ _ _ _ _ _ _
    _ _ _ _ _ _ _ _ _ _ _ _ _
    _ _
    _ _ _ _ _ _ _
    _ _ _ _ _); try (intros; exact I);
    try (lazymatch goal with |- context [Wr] =>
      unfold Wr; cbn beta; intros; contradiction end).
  - auto.
  - auto.
  - intros c b Hc. left. exact Hc.
  - intros c Hc. split; [exact Hc|]. exists 0. reflexivity.
  - intros c f id (_ & l & Ht). split; [reflexivity|]. exists id.
    unfold x_aft. cbn [q_tags]. rewrite Ht. reflexivity.
  - reflexivity.
  - intros c f id b _. right. reflexivity.
  - auto.
  - intros c e (Hc & ->). auto.
  - intros c e (Hc & ->). reflexivity.
  - intros c Hc. exists c. auto.
  - auto.
  - intros c e (Hc & ->). auto.
  - intros c e (Hc & ->). reflexivity.
  - intros c e (Hc & ->). reflexivity.
  - intros c t v. apply xrc_base.
  - intros c b Hc Hv _. eexists. intros tail _ x i o d (-> & Ht & Hr).
    exists x, tail. cbn [xe_base base_okd proto_of readString dcompact d_readString] in *.
    unfold bind. rewrite xc_string by assumption. split; [reflexivity|].
    repeat split; [exact Ht|rewrite Hr; exact Hc].
  - intros c Hc tail _ x i o d (-> & Ht & Hr).
    exists (mkcrd (0 :: tags x) (rbool x)), tail. split; [reflexivity|].
    repeat split; cbn [tags rbool x_inS q_tags q_pend]; [rewrite Ht; reflexivity|exact Hr].
  - intros c f id t ob. apply xrc_fbeg.
  - intros c f id ob _ tail _ x i o d (-> & Ht & Hr). exists x, tail.
    split; [reflexivity|]. repeat split; assumption.
  - intros c f _ tail. exists 0. intros t -> x i o d (-> & Ht & Hr).
    exists x, tail. split; [|repeat split; assumption].
    cbn [proto_of readFieldBegin dcompact d_readFieldBegin]. unfold ec_readFieldBegin.
    cbn [app]. unfold bind at 1. rewrite readU8_b. reflexivity.
  - intros c f Hc (Hfp & l & Hft) tail _ x i o d (-> & Ht & Hr).
    exists (mkcrd (tl (tags x)) (rbool x)), tail. split; [reflexivity|].
    repeat split; cbn [tags rbool x_nxt q_tags q_pend];
      [rewrite Ht, Hft; reflexivity|rewrite Hr; exact Hfp].
  - intros c t n. apply xrc_lbeg.
  - intros c e Hc (_ & ->) tail _ x i o d Hx. exists x, tail.
    rewrite (proj1 Hx). split; [reflexivity|].
    destruct Hx as (_ & Hx). split; [reflexivity|exact Hx].
  - intros c t n. apply xrc_lbeg.
  - intros c e Hc (_ & ->) tail _ x i o d Hx. exists x, tail.
    rewrite (proj1 Hx). split; [reflexivity|].
    destruct Hx as (_ & Hx). split; [reflexivity|exact Hx].
  - intros c k t n. apply xrc_mbeg.
  - intros c e Hc (_ & ->) tail _ x i o d Hx. exists x, tail.
    rewrite (proj1 Hx). split; [reflexivity|].
    destruct Hx as (_ & Hx). split; [reflexivity|exact Hx].
  - intros k t n Hn. unfold c_mret. destruct (n =? 0) eqn:E; [lia|reflexivity].
  - intros k t. reflexivity.
  - intros c t v Hc Hb Hv. unfold x_vpos in Hc.
    destruct t; try discriminate Hb; destruct v; try discriminate Hv;
      cbn [xe_base base_okd] in *; rewrite ?app_length, ?le_bytes_length;
      try (apply varint_pos); try (cbn [length]; lia);
      try (pose proof (varint_pos (Z.of_nat (length b))); lia).
    + rewrite Hc. destruct b; cbn [length]; lia.
    + destruct (utf8_encode s) as [b|]; [|discriminate].
      rewrite app_length. pose proof (varint_pos (Z.of_nat (length b))). lia.
  - intros f id t ob. unfold xe_fbeg, sc_field. destruct (_ && _); cbn [length]; lia.
  - cbn [length app]. lia.
  - intros c t n. unfold sc_list. destruct (_ <=? _); cbn [length]; lia.
  - intros c k t n. unfold sc_map. destruct (_ =? _); [cbn [length]; lia|].
    rewrite app_length. pose proof (varint_pos n). lia.
Defined.

Variable env : schema.

Lemma enc_xcompact v : forall t c, x_vpos c ->
  enc xcompact_laws env c t v = sc_value env t v.
Proof.
  induction v using value_rect'; intros t c Hc.
  1-6: destruct t; cbn [enc e_base xcompact_laws xe_base sc_value];
    unfold sc_string, sc_binary; try reflexivity.
  - unfold x_vpos in Hc. rewrite Hc. destruct b; reflexivity.
  - apply le8.
  - destruct t; try reflexivity.
    rewrite enc_list. cbn [sc_value]. cbn [e_lbeg xcompact_laws].
    rewrite ctc_code. f_equal. cbn [inL xcompact_laws].
    assert (Hn : x_vpos (x_nxt c)) by reflexivity. revert Hn.
    generalize (x_nxt c) as e.
    induction H as [|x l Hx _ IH]; intros e He; [reflexivity|].
    cbn [enc_elems map concat nxt xcompact_laws]. rewrite Hx by exact He. f_equal.
    apply IH. reflexivity.
  - destruct t; try reflexivity.
    rewrite enc_set. cbn [sc_value]. cbn [e_lbeg xcompact_laws].
    rewrite ctc_code. f_equal. cbn [inL xcompact_laws].
    assert (Hn : x_vpos (x_nxt c)) by reflexivity. revert Hn.
    generalize (x_nxt c) as e.
    induction H as [|x l Hx _ IH]; intros e He; [reflexivity|].
    cbn [enc_elems map concat nxt xcompact_laws]. rewrite Hx by exact He. f_equal.
    apply IH. reflexivity.
  - destruct t; try reflexivity.
    rewrite enc_map. cbn [sc_value]. cbn [e_mbeg xcompact_laws].
    rewrite !ctc_code. f_equal. cbn [inM xcompact_laws].
    assert (Hn : x_vpos (x_nxt c)) by reflexivity. revert Hn.
    generalize (x_nxt c) as e.
    induction H as [|[k x] l [Hk Hx] _ IH]; intros e He; [reflexivity|].
    cbn [enc_items map concat fst snd nxt xcompact_laws] in *.
    rewrite Hk, Hx, <- app_assoc by (exact He || reflexivity).
    do 2 f_equal. apply IH. reflexivity.
  - destruct t; try reflexivity.
    cbn [sc_value]. destruct (nth_error env n) as [ds|] eqn:E.
    2:{ cbn [enc]. rewrite E. reflexivity. }
    rewrite (enc_struct _ _ _ _ _ _ _ E). cbn [e_sbeg xcompact_laws inS app].
    clear E.
    assert (G : forall f0 ds prev, hd 0 (q_tags f0) = prev ->
      enc_fields xcompact_laws env f0 fs ds =
      (fix go prev fs ds :=
             match fs, ds with
             | f :: fs', d :: ds' =>
                 match f with
                 | Some x =>
                     match f_ty d, x with
                     | TBool, VBool b => sc_field prev (f_id d) (if b then 1 else 2)
                     | t', _ => sc_field prev (f_id d) (sc_type t')
                                ++ sc_value env t' x
                     end ++ go (f_id d) fs' ds'
                 | None => go prev fs' ds'
                 end
             | _, _ => [x00]
             end) prev fs ds).
    { clear ds. induction H as [|f fs Hf _ IH]; intros f0 ds prev Hp.
      - destruct ds; reflexivity.
      - destruct ds as [|d ds].
        { destruct f; reflexivity. }
        destruct f as [x|]; cbn [enc_fields].
        + cbn [e_fbeg e_fend aft inF xcompact_laws] in *. unfold xe_fbeg.
          rewrite Hp, ctc_code.
          assert (DD : (exists b, f_ty d = TBool /\ x = VBool b)
                      \/ fold_bool (f_ty d) x = None).
          { destruct (f_ty d), x; cbn [fold_bool]; eauto. }
          destruct DD as [(b & Et & ->)|DD].
          * rewrite Et. cbn [fold_bool enc e_base xcompact_laws xe_base x_inF q_pend app].
            destruct b; f_equal; apply IH; reflexivity.
          * rewrite DD. rewrite Hf by reflexivity. cbn [app].
            rewrite (IH (x_aft f0 (f_id d)) ds (f_id d) eq_refl).
            destruct (f_ty d), x; try discriminate DD; rewrite <- app_assoc; reflexivity.
        + apply IH. exact Hp. }
    apply G. reflexivity.
Qed.
End C.
