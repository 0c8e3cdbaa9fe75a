(** Proofs about single values and message headers: integer ranges, varints,
    zigzag, UTF-8, message headers. *)
From Coq Require Import ZArith List Bool Lia ZifyBool.
From Coq Require Import Init.Byte.
From Verif Require Import Base Bytes BytesFacts Utf8 Utf8Facts Proto Spec Laws
  Binary BinaryLaws SpecBinary Compact CompactFacts CompactLaws SpecCompact
  WireFacts InstFacts.
Import ListNotations.
Open Scope Z_scope.
Ltac Zify.zify_post_hook ::= Z.div_mod_to_equations.

(** * Ranges *)

Definition wr_ok {X} (s : st X) (bs : list byte) : outcome unit * st X :=
  (Ok tt, mkst (px s) (inp s) (out s ++ bs) (depth s)).

Lemma b_write_bad n z (s : st unit) : ~ in_signed n z ->
  (buff <- pack_signed n z ;; twrite buff) s = (Raise EStructError, s).
Proof. intros H. unfold bind. rewrite pack_signed_bad by assumption. reflexivity. Qed.

Lemma b_write_good n z (s : st unit) : in_signed n z ->
  (buff <- pack_signed n z ;; twrite buff) s = wr_ok s (be_bytes n z).
Proof. intros H. unfold bind. rewrite pack_signed_ok by assumption. reflexivity. Qed.

Lemma c_ready_w x : state x = VALUE_WRITE \/ state x = CONTAINER_WRITE ->
  existsb (cstate_eqb (state x)) [VALUE_WRITE; CONTAINER_WRITE] = true.
Proof. intros [->| ->]; reflexivity. Qed.

Lemma writer_eq A (m : MC A) (s : st cst) :
  state (px s) = VALUE_WRITE \/ state (px s) = CONTAINER_WRITE ->
  writer m s = m s.
Proof.
  intros H. unfold writer, assert_state, bind, get_px.
  rewrite (c_ready_w _ H). reflexivity.
Qed.

Lemma c_write_bad bits z (s : st cst) : ~ in_bits bits z ->
  (n <- makeZigZag z bits ;; writeVarint n) s
  = (Raise (EProtocol TP_INVALID_DATA), s).
Proof. intros H. unfold bind. rewrite makeZigZag_bad by assumption. reflexivity. Qed.

Lemma c_write_good bits z (s : st cst) : 1 <= bits <= 64 -> in_bits bits z ->
  (n <- makeZigZag z bits ;; writeVarint n) s = wr_ok s (varint (zigzag z)).
Proof.
  intros Hb H. apply writeZZ_ok; [assumption|assumption|].
  unfold in_bits in H.
  assert (2 ^ (bits - 1) <= 2 ^ 63) by (apply Z.pow_le_mono_r; lia).
  change (2 ^ 63) with 9223372036854775808 in *. lia.
Qed.

(** * Varints *)

Lemma uleb_length_min k : forall n, 0 <= n < 128 ^ Z.of_nat k -> (0 < k)%nat ->
  n < 128 ^ Z.of_nat (length (uleb k n))
  /\ ((1 < length (uleb k n))%nat ->
      128 ^ (Z.of_nat (length (uleb k n)) - 1) <= n)
  /\ (1 <= length (uleb k n) <= k)%nat.
Proof.
  induction k as [|k IH]; intros n Hn Hk; [lia|].
  cbn [uleb]. destruct (n <? 128) eqn:E.
  - cbn [length]. change (128 ^ Z.of_nat 1) with 128. lia.
  - rewrite Nat2Z.inj_succ, Z.pow_succ_r in Hn by lia.
    destruct k as [|k]; [cbn in Hn; lia|].
    destruct (IH (n / 128) ltac:(lia) ltac:(lia)) as (H1 & H2 & H3).
    cbn [length]. set (len := length (uleb (S k) (n / 128))) in *.
    rewrite Nat2Z.inj_succ, Z.pow_succ_r by lia.
    split; [|split; [|lia]].
    + lia.
    + intros _. replace (Z.succ (Z.of_nat len) - 1) with (Z.of_nat len) by lia.
      destruct (Nat.eq_dec len 1) as [->|Hl].
      * change (128 ^ Z.of_nat 1) with 128. lia.
      * specialize (H2 ltac:(lia)).
        replace (Z.of_nat len) with (Z.succ (Z.of_nat len - 1)) by lia.
        rewrite Z.pow_succ_r by lia. lia.
Qed.

Lemma uleb_any_read X n (x : X) tail o d : 0 <= n < 128 ^ 10 ->
  readVarint (mkst x (varint n ++ tail) o d) = (Ok n, mkst x tail o d).
Proof. apply readVarint_ok. Qed.

(** Ten bytes with the continuation bit: refused. *)
Lemma readVarint_long X k : forall bs result shift (x : X) tail o d,
  length bs = k -> Forall (fun b => 128 <= b2z b) bs ->
  readVarint_loop k result shift (mkst x (bs ++ tail) o d)
  = (Raise (EProtocol TP_INVALID_DATA), mkst x tail o d).
Proof.
  induction k as [|k IH]; intros bs result shift x tail o d Hl Hb.
  - destruct bs; [reflexivity|discriminate].
  - destruct bs as [|b bs]; [discriminate|]. inversion Hb; subst.
    cbn [readVarint_loop app]. unfold bind. rewrite readAll_1.
    rewrite be_val_1, shiftr_div by lia. change (2 ^ 7) with 128.
    destruct (b2z b / 128 =? 0) eqn:E; [lia|].
    apply IH; [cbn in Hl; lia|assumption].
Qed.

Lemma writeVarint_any X n (s : st X) : 0 <= n ->
  exists bs, writeVarint n s = wr_ok s bs
    /\ n < 128 ^ Z.of_nat (length bs)
    /\ ((1 < length bs)%nat -> 128 ^ (Z.of_nat (length bs) - 1) <= n)
    /\ (1 <= length bs)%nat.
Proof.
  intros Hn. exists (uleb (varint_fuel n) n). split.
  - unfold writeVarint, assert_, bind. destruct (0 <=? n) eqn:E; [|lia].
    cbn [ret]. rewrite varint_loop_any by assumption. reflexivity.
  - destruct (uleb_length_min (varint_fuel n) n) as (H1 & H2 & H3).
    + split; [assumption|apply varint_fuel_enough; assumption].
    + unfold varint_fuel; lia.
    + repeat split; auto. lia.
Qed.

Lemma writeVarint_neg X n (s : st X) : n < 0 ->
  writeVarint n s = (Raise EAssertion, s).
Proof.
  intros H. unfold writeVarint, assert_, bind.
  destruct (0 <=? n) eqn:E; [lia|reflexivity].
Qed.

(** What a varint read returns is at most 70 bits, whatever the input. *)
Lemma readVarint_loop_range X k : forall result shift (s : st X) v s',
  0 <= shift -> 0 <= result < 2 ^ shift ->
  readVarint_loop k result shift s = (Ok v, s') ->
  0 <= v < 2 ^ (shift + 7 * Z.of_nat k).
Proof.
  induction k as [|k IH]; intros result shift s v s' Hs Hr H.
  - discriminate.
  - cbn [readVarint_loop] in H. unfold bind in H.
    destruct (readAll 1 s) as [[a| |] s1]; try discriminate.
    assert (Hl : Z.lor result (Z.shiftl (Z.land (be_val a) 127) shift)
            = result + Z.land (be_val a) 127 * 2 ^ shift)
      by (apply lor_add; assumption).
    rewrite Hl in H. rewrite land127 in H.
    assert (Hb : 0 <= result + be_val a mod 128 * 2 ^ shift < 2 ^ (shift + 7)).
    { rewrite Z.pow_add_r by lia. change (2 ^ 7) with 128.
      pose proof (Z.mod_pos_bound (be_val a) 128 ltac:(lia)). nia. }
    destruct (_ =? 0).
    + unfold ret in H. assert (v = result + be_val a mod 128 * 2 ^ shift) by congruence.
      subst v. split; [lia|]. eapply Z.lt_le_trans; [apply Hb|].
      apply Z.pow_le_mono_r; lia.
    + apply IH in H; [|lia|assumption].
      replace (shift + 7 * Z.of_nat (S k)) with (shift + 7 + 7 * Z.of_nat k) by lia.
      exact H.
Qed.

Lemma readVarint_range X (s : st X) v s' : readVarint s = (Ok v, s') ->
  0 <= v < 2 ^ 70.
Proof.
  intros H. apply readVarint_loop_range in H; [exact H|lia|].
  change (2 ^ 0) with 1. lia.
Qed.

Lemma zigzag_inj a b : zigzag a = zigzag b -> a = b.
Proof.
  unfold zigzag. destruct (0 <=? a) eqn:A, (0 <=? b) eqn:B; lia.
Qed.

Lemma fromZigZag_range bits m : 1 <= bits -> 0 <= m < 2 ^ bits ->
  in_bits bits (fromZigZag m).
Proof.
  intros Hb Hm. pose proof (fromZigZag_inv m ltac:(lia)) as E.
  unfold in_bits. unfold zigzag in E.
  replace (2 ^ bits) with (2 * 2 ^ (bits - 1)) in Hm
    by (rewrite <- Z.pow_succ_r by lia; f_equal; lia).
  destruct (0 <=? fromZigZag m) eqn:F; lia.
Qed.

(** * Integer reads in the binary protocol *)

Lemma readAll_len X n (s : st X) l s' : readAll n s = (Ok l, s') -> 0 <= n ->
  Z.of_nat (length l) = n.
Proof.
  unfold readAll. intros H Hn. destruct (n <=? 0) eqn:E.
  - assert (l = []) by congruence. subst l. cbn; lia.
  - destruct (n <=? Z.of_nat (length (inp s))) eqn:F; [|discriminate].
    assert (l = firstn (Z.to_nat n) (inp s)) by congruence. subst l.
    rewrite firstn_length. lia.
Qed.

Lemma b_readInt_range n (s : st unit) z s' : (0 < n)%nat ->
  (buff <- readAll (Z.of_nat n) ;; ret (unpack_signed n buff)) s = (Ok z, s') ->
  in_signed n z.
Proof.
  intros Hn H. unfold bind in H.
  destruct (readAll (Z.of_nat n) s) as [[l| |] s1] eqn:E; try discriminate.
  apply readAll_len in E; [|lia]. unfold ret in H.
  assert (z = unpack_signed n l) by congruence. subst z.
  apply unpack_signed_range; [assumption|lia].
Qed.

(** * Binary message headers *)

Lemma lor_version t : 0 <= t < 65536 ->
  Z.lor B_VERSION_1 t = B_VERSION_1 + t.
Proof.
  intros Ht. unfold B_VERSION_1.
  rewrite Z.lor_comm.
  change (-2147418112) with (Z.shiftl (-32767) 16).
  rewrite lor_add by (change (2 ^ 16) with 65536; lia).
  change (Z.shiftl (-32767) 16) with (-2147418112).
  change (2 ^ 16) with 65536. lia.
Qed.

Lemma land_vmask z : Z.land z B_VERSION_MASK = 65536 * (z / 65536).
Proof.
  unfold B_VERSION_MASK. change (-65536) with (Z.lnot (Z.ones 16)).
  rewrite <- Z.ldiff_land, Z.ldiff_ones_r by lia.
  rewrite Z.shiftl_mul_pow2, Z.shiftr_div_pow2 by lia.
  change (2 ^ 16) with 65536. lia.
Qed.

Lemma b_writeString_ok SL name (s : st unit) : SL <= 2147483647 ->
  base_ok SL TString (VStr name) = true ->
  b_writeString name s = wr_ok s (sb_string name).
Proof.
  intros HL H. cbn [base_okd] in H. unfold b_writeString, sb_string, encode_utf8.
  destruct (utf8_encode name) as [b|]; [|discriminate].
  unfold bind, ret.
  rewrite (b_writeBinary_ok bdefault SL 0 (bdefault_limits SL 0 HL ltac:(lia)) b s H).
  unfold wr_ok, sb_binary. rewrite be4. reflexivity.
Qed.

Lemma writeInt_spec n z (s : st unit) : in_signed n z ->
  (buff <- pack_signed n z ;; twrite buff) s = wr_ok s (be_bytes n z).
Proof. apply b_write_good. Qed.

Lemma be1_int8 z : be_bytes 1 z = int8 z.
Proof. reflexivity. Qed.

Lemma wr_ok_bind {X} (m : M X unit) (k : M X unit) s b1 b2 :
  m s = wr_ok s b1 ->
  k (snd (wr_ok s b1)) = wr_ok (snd (wr_ok s b1)) b2 ->
  (m ;;; k) s = wr_ok s (b1 ++ b2).
Proof.
  intros H1 H2. unfold bind. rewrite H1. unfold wr_ok in *. cbn [snd] in H2.
  rewrite H2. cbn [px inp out depth]. rewrite app_assoc. reflexivity.
Qed.

Lemma b_writeMessage_ok cf SL name type seqid (s : st unit) :
  SL <= 2147483647 -> base_ok SL TString (VStr name) = true ->
  (if strictWrite cf then 0 <= type <= 255 else -128 <= type <= 127) ->
  between (-2147483648) 2147483647 seqid = true ->
  b_writeMessageBegin cf name type seqid s
  = wr_ok s (sb_message (strictWrite cf) name type seqid).
Proof.
  intros HL Hn Ht Hq. apply between_spec in Hq.
  assert (Q : forall s, b_writeI32 seqid s = wr_ok s (int32 seqid)).
  { intros s0. rewrite <- be4. apply writeInt_spec, in4. lia. }
  unfold b_writeMessageBegin, sb_message. destruct (strictWrite cf).
  - replace ([x80; x01; x00; z2b type] ++ sb_string name ++ int32 seqid)
      with (int32 (B_VERSION_1 + type) ++ sb_string name ++ int32 seqid).
    + apply wr_ok_bind.
      * rewrite <- be4. rewrite lor_version by lia. apply writeInt_spec, in4.
        unfold B_VERSION_1. lia.
      * apply wr_ok_bind; [apply (b_writeString_ok SL); assumption|apply Q].
    + f_equal. unfold int32, B_VERSION_1.
      rewrite <- (z2b_mod ((_ + type) / 16777216)),
              <- (z2b_mod ((_ + type) / 65536)),
              <- (z2b_mod ((_ + type) / 256)), <- (z2b_mod (_ + type)).
      replace ((-2147418112 + type) / 16777216 mod 256) with 128 by lia.
      replace ((-2147418112 + type) / 65536 mod 256) with 1 by lia.
      replace ((-2147418112 + type) / 256 mod 256) with 0 by lia.
      replace ((-2147418112 + type) mod 256) with (type mod 256) by lia.
      rewrite z2b_mod. reflexivity.
  - apply wr_ok_bind; [apply (b_writeString_ok SL); assumption|].
    apply wr_ok_bind; [|apply Q]. rewrite <- be1_int8. apply writeInt_spec, in1. lia.
Qed.

Lemma b_readI32_ok z tail o d : -2147483648 <= z <= 2147483647 ->
  b_readI32 (mkst tt (int32 z ++ tail) o d) = (Ok z, mkst tt tail o d).
Proof.
  intros H. rewrite <- be4. unfold b_readI32.
  exact (readInt 4 z tail tt o d ltac:(lia) (in4 z H)).
Qed.

Lemma b_readByte_ok z tail o d : -128 <= z <= 127 ->
  b_readByte (mkst tt (int8 z ++ tail) o d) = (Ok z, mkst tt tail o d).
Proof.
  intros H. rewrite <- be1_int8. unfold b_readByte.
  exact (readInt 1 z tail tt o d ltac:(lia) (in1 z H)).
Qed.

Lemma b_readString_ok cf SL CL name tail o d : b_limits cf SL CL ->
  base_ok SL TString (VStr name) = true ->
  b_readString cf (mkst tt (sb_string name ++ tail) o d)
  = (Ok name, mkst tt tail o d).
Proof.
  intros HL H. cbn [base_okd] in H. unfold b_readString, sb_string, decode_utf8.
  destruct (utf8_encode name) as [b|] eqn:E; [|discriminate].
  unfold bind, sb_binary. rewrite <- be4.
  rewrite (b_readBinary_ok cf SL CL HL) by assumption.
  rewrite (utf8_decode_encode _ _ E). reflexivity.
Qed.

Lemma version_word t : 0 <= t <= 255 ->
  [x80; x01; x00; z2b t] = int32 (B_VERSION_1 + t).
Proof.
  intros Ht. unfold int32, B_VERSION_1.
  rewrite <- (z2b_mod ((_ + t) / 16777216)),
          <- (z2b_mod ((_ + t) / 65536)),
          <- (z2b_mod ((_ + t) / 256)), <- (z2b_mod (_ + t)).
  replace ((-2147418112 + t) / 16777216 mod 256) with 128 by lia.
  replace ((-2147418112 + t) / 65536 mod 256) with 1 by lia.
  replace ((-2147418112 + t) / 256 mod 256) with 0 by lia.
  replace ((-2147418112 + t) mod 256) with (t mod 256) by lia.
  rewrite z2b_mod. reflexivity.
Qed.

Lemma b_readMessage_strict cf SL CL name type seqid tail o d :
  b_limits cf SL CL -> base_ok SL TString (VStr name) = true ->
  0 <= type <= 255 -> between (-2147483648) 2147483647 seqid = true ->
  b_readMessageBegin cf
    (mkst tt (sb_message true name type seqid ++ tail) o d)
  = (Ok (name, type, seqid), mkst tt tail o d).
Proof.
  intros HL Hn Ht Hq. apply between_spec in Hq.
  unfold sb_message. rewrite version_word by assumption.
  rewrite <- !app_assoc.
  unfold b_readMessageBegin.
  rewrite (bind_eq _ _ _ b_readI32 _ _ (B_VERSION_1 + type)
    (mkst tt (sb_string name ++ int32 seqid ++ tail) o d))
    by (apply b_readI32_ok; unfold B_VERSION_1; lia).
  destruct (B_VERSION_1 + type <? 0) eqn:E; [|unfold B_VERSION_1 in E; lia].
  rewrite land_vmask.
  destruct (negb _) eqn:F.
  { exfalso. unfold B_VERSION_1 in F. lia. }
  rewrite (bind_eq _ _ _ _ _ _ name (mkst tt (int32 seqid ++ tail) o d))
    by (apply (b_readString_ok cf SL CL); assumption).
  rewrite (bind_eq _ _ _ b_readI32 _ _ seqid (mkst tt tail o d))
    by (apply b_readI32_ok; lia).
  unfold ret. repeat f_equal. unfold B_TYPE_MASK. rewrite land255.
  unfold B_VERSION_1. lia.
Qed.

Lemma b_readMessage_old cf SL CL name type seqid tail o d :
  b_limits cf SL CL -> base_ok SL TString (VStr name) = true ->
  -128 <= type <= 127 -> between (-2147483648) 2147483647 seqid = true ->
  strictRead cf = false ->
  b_readMessageBegin cf
    (mkst tt (sb_message false name type seqid ++ tail) o d)
  = (Ok (name, type, seqid), mkst tt tail o d).
Proof.
  intros HL Hn Ht Hq Hs. apply between_spec in Hq.
  unfold sb_message, sb_string. cbn [base_okd] in Hn.
  destruct (utf8_encode name) as [b|] eqn:E; [|discriminate].
  assert (Hb : 0 <= Z.of_nat (length b) <= 2147483647).
  { destruct HL as (H1 & H2 & H3 & H4). unfold len_le in Hn. lia. }
  unfold sb_binary. rewrite <- !app_assoc.
  unfold b_readMessageBegin.
  rewrite (bind_eq _ _ _ b_readI32 _ _ (Z.of_nat (length b))
    (mkst tt (b ++ int8 type ++ int32 seqid ++ tail) o d))
    by (apply b_readI32_ok; lia).
  destruct (Z.of_nat (length b) <? 0) eqn:F; [lia|]. rewrite Hs.
  rewrite (bind_eq _ _ _ _ _ _ b (mkst tt (int8 type ++ int32 seqid ++ tail) o d))
    by (apply readAll_app).
  rewrite (bind_eq _ _ _ _ _ _ name (mkst tt (int8 type ++ int32 seqid ++ tail) o d))
    by (unfold decode_utf8; rewrite (utf8_decode_encode _ _ E); reflexivity).
  rewrite (bind_eq _ _ _ b_readByte _ _ type (mkst tt (int32 seqid ++ tail) o d))
    by (apply b_readByte_ok; assumption).
  rewrite (bind_eq _ _ _ b_readI32 _ _ seqid (mkst tt tail o d))
    by (apply b_readI32_ok; lia).
  reflexivity.
Qed.

(** The first word, in terms of its bytes. *)
Lemma b_readI32_bytes b0 b1 b2 b3 tail o d :
  b_readI32 (mkst tt (b0 :: b1 :: b2 :: b3 :: tail) o d)
  = (Ok (to_signed 4 (((b2z b0 * 256 + b2z b1) * 256 + b2z b2) * 256 + b2z b3)),
     mkst tt tail o d).
Proof.
  unfold b_readI32, bind.
  pose proof (readAll_app unit [b0; b1; b2; b3] tail tt o d) as H.
  cbn [app length] in H. change (Z.of_nat 4) with 4 in H. rewrite H.
  unfold ret, unpack_signed, be_val. cbn [rev app le_val]. do 3 f_equal. lia.
Qed.

Lemma b_old_refused cf b0 b1 b2 b3 tail o d : strictRead cf = true ->
  b2z b0 < 128 ->
  b_readMessageBegin cf (mkst tt (b0 :: b1 :: b2 :: b3 :: tail) o d)
  = (Raise (EProtocol TP_BAD_VERSION), mkst tt tail o d).
Proof.
  intros Hs H0. unfold b_readMessageBegin, bind at 1.
  rewrite b_readI32_bytes.
  pose proof (b2z_range b0); pose proof (b2z_range b1); pose proof (b2z_range b2);
    pose proof (b2z_range b3).
  unfold to_signed. change (2 ^ (8 * Z.of_nat 4 - 1)) with 2147483648.
  change (2 ^ (8 * Z.of_nat 4)) with 4294967296.
  destruct (_ <? 2147483648) eqn:E; [|lia].
  destruct (_ <? 0) eqn:F; [lia|]. rewrite Hs. reflexivity.
Qed.

Lemma b_version_refused cf b0 b1 b2 b3 tail o d : 128 <= b2z b0 ->
  ~ (b0 = x80 /\ b1 = x01) ->
  b_readMessageBegin cf (mkst tt (b0 :: b1 :: b2 :: b3 :: tail) o d)
  = (Raise (EProtocol TP_BAD_VERSION), mkst tt tail o d).
Proof.
  intros H0 Hv. unfold b_readMessageBegin, bind at 1.
  rewrite b_readI32_bytes.
  assert (Hv' : ~ (b2z b0 = 128 /\ b2z b1 = 1)).
  { intros [A B]. apply Hv. split; apply b2z_inj; [rewrite A|rewrite B]; reflexivity. }
  pose proof (b2z_range b0); pose proof (b2z_range b1); pose proof (b2z_range b2);
    pose proof (b2z_range b3).
  unfold to_signed. change (2 ^ (8 * Z.of_nat 4 - 1)) with 2147483648.
  change (2 ^ (8 * Z.of_nat 4)) with 4294967296.
  destruct (_ <? 2147483648) eqn:E; [lia|].
  destruct (_ <? 0) eqn:F; [|lia].
  rewrite land_vmask. unfold B_VERSION_1.
  destruct (negb _) eqn:G; [reflexivity|]. exfalso. lia.
Qed.

(** * Compact message headers *)

Lemma c_writeString_ok name b (s : st cst) : utf8_encode name = Some b ->
  Z.of_nat (length b) <= 2147483647 ->
  c_writeBinary_ b s = wr_ok s (sc_string name).
Proof.
  intros E Hb. unfold sc_string. rewrite E.
  rewrite (writeBinary__ok cdefault 2147483647 0
    (cdefault_limits 2147483647 0 ltac:(lia) ltac:(lia)))
    by (unfold len_le; lia).
  reflexivity.
Qed.

Lemma seqid_mod q : -2147483648 <= q <= 2147483647 ->
  (if q <? 0 then 2147483648 + (2147483648 + q) else q) = q mod 2 ^ 32.
Proof.
  intros H. change (2 ^ 32) with 4294967296. destruct (q <? 0) eqn:E; lia.
Qed.

Lemma type_byte t : 0 <= t <= 7 ->
  Z.lor C_VERSION (Z.shiftl t C_TYPE_SHIFT) = 32 * t + 1.
Proof.
  intros H. unfold C_VERSION, C_TYPE_SHIFT.
  rewrite lor_add by (change (2 ^ 5) with 32; lia).
  change (2 ^ 5) with 32. lia.
Qed.

Lemma c_writeMessage_ok name type seqid x i o d SL : state x = CLEAR ->
  SL <= 2147483647 -> base_ok SL TString (VStr name) = true ->
  0 <= type <= 7 -> between (-2147483648) 2147483647 seqid = true ->
  c_writeMessageBegin name type seqid (mkst x i o d)
  = (Ok tt, mkst (set_state VALUE_WRITE x) i
                 (o ++ sc_message name type seqid) d).
Proof.
  intros Hx HL Hn Ht Hq. apply between_spec in Hq. cbn [base_okd] in Hn.
  unfold sc_message, sc_string.
  destruct (utf8_encode name) as [b|] eqn:E; [|discriminate].
  unfold c_writeMessageBegin.
  rewrite (bind_eq _ _ _ (assert_state [CLEAR]) _ _ tt (mkst x i o d))
    by (unfold assert_state, bind, get_px; cbn [px]; rewrite Hx; reflexivity).
  rewrite (bind_eq _ _ _ _ _ _ tt (mkst x i (o ++ [x82]) d))
    by (rewrite writeUByte_ok by (unfold C_PROTOCOL_ID; lia); reflexivity).
  rewrite type_byte by assumption.
  rewrite (bind_eq _ _ _ _ _ _ tt
    (mkst x i ((o ++ [x82]) ++ [z2b (32 * type + 1)]) d))
    by (rewrite writeUByte_ok by lia; reflexivity).
  rewrite seqid_mod by assumption.
  rewrite (bind_eq _ _ _ _ _ _ tt
    (mkst x i (((o ++ [x82]) ++ [z2b (32 * type + 1)])
               ++ varint (seqid mod 2 ^ 32)) d)).
  2:{ rewrite writeVarint_ok; [reflexivity|].
      rewrite pow128_10. change (2 ^ 32) with 4294967296. lia. }
  rewrite (bind_eq _ _ _ _ _ _ b
    (mkst x i (((o ++ [x82]) ++ [z2b (32 * type + 1)])
               ++ varint (seqid mod 2 ^ 32)) d))
    by (unfold encode_utf8; rewrite E; reflexivity).
  rewrite (bind_eq _ _ _ _ _ _ tt
    (mkst x i ((((o ++ [x82]) ++ [z2b (32 * type + 1)])
               ++ varint (seqid mod 2 ^ 32)) ++ sc_string name) d)).
  2:{ rewrite (c_writeString_ok name b) by (auto; unfold len_le in Hn; lia).
      reflexivity. }
  unfold upd, bind, get_px, set_px. cbn [px inp out depth]. f_equal. f_equal.
  rewrite <- !app_assoc. unfold sc_string. rewrite E. reflexivity.
Qed.

Lemma c_readMessage_ok cf SL CL name type seqid x tail o d : state x = CLEAR ->
  c_limits cf SL CL -> base_ok SL TString (VStr name) = true ->
  0 <= type <= 7 -> between (-2147483648) 2147483647 seqid = true ->
  c_readMessageBegin cf (mkst x (sc_message name type seqid ++ tail) o d)
  = (Ok (name, type, seqid), mkst x tail o d).
Proof.
  intros Hx HL Hn Ht Hq. apply between_spec in Hq. cbn [base_okd] in Hn.
  unfold sc_message, sc_string.
  destruct (utf8_encode name) as [b|] eqn:E; [|discriminate].
  rewrite <- !app_assoc. cbn [app].
  unfold c_readMessageBegin.
  set (rest := varint (seqid mod 2 ^ 32) ++ sc_binary b ++ tail).
  rewrite (bind_eq _ _ _ (assert_state [CLEAR]) _ _ tt
    (mkst x (x82 :: z2b (32 * type + 1) :: rest) o d))
    by (unfold assert_state, bind, get_px; cbn [px]; rewrite Hx; reflexivity).
  rewrite (bind_eq _ _ _ c_readUByte _ _ 130
    (mkst x (z2b (32 * type + 1) :: rest) o d))
    by (exact (readUByte_ok 130 _ x o d ltac:(lia))).
  change (negb (130 =? C_PROTOCOL_ID)) with false. cbv iota.
  rewrite (bind_eq _ _ _ c_readUByte _ _ (32 * type + 1) (mkst x rest o d))
    by (exact (readUByte_ok (32 * type + 1) _ x o d ltac:(lia))).
  assert (V : Z.land (32 * type + 1) C_VERSION_MASK = 1).
  { unfold C_VERSION_MASK. change 31 with (2 ^ 5 - 1). rewrite land_ones by lia.
    change (2 ^ 5) with 32. lia. }
  assert (T : Z.land (Z.shiftr (32 * type + 1) C_TYPE_SHIFT) C_TYPE_BITS = type).
  { unfold C_TYPE_SHIFT, C_TYPE_BITS. rewrite shiftr_div by lia.
    change 7 with (2 ^ 3 - 1). rewrite land_ones by lia.
    change (2 ^ 5) with 32. change (2 ^ 3) with 8. lia. }
  rewrite V, T. change (negb (1 =? C_VERSION)) with false. cbv iota. unfold rest.
  rewrite (bind_eq _ _ _ readVarint _ _ (seqid mod 2 ^ 32)
    (mkst x (sc_binary b ++ tail) o d)).
  2:{ apply readVarint_ok. rewrite pow128_10. change (2 ^ 32) with 4294967296. lia. }
  rewrite (bind_eq _ _ _ (c_readBinary_ cf) _ _ b (mkst x tail o d)).
  2:{ unfold sc_binary.
      apply (readBinary__ok cf SL CL HL). assumption. }
  unfold bind, decode_utf8. rewrite (utf8_decode_encode _ _ E).
  unfold ret. repeat f_equal. change (2 ^ 32) with 4294967296.
  destruct (_ >? 2147483647) eqn:G; lia.
Qed.

Lemma c_id_refused cf b0 tail x o d : state x = CLEAR -> b0 <> x82 ->
  c_readMessageBegin cf (mkst x (b0 :: tail) o d)
  = (Raise (EProtocol TP_BAD_VERSION), mkst x tail o d).
Proof.
  intros Hx H. unfold c_readMessageBegin, assert_state, c_readUByte, bind, get_px.
  cbn [px]. rewrite Hx. cbn [existsb cstate_eqb orb assert_]. unfold ret.
  rewrite readAll_1. unfold unpack_unsigned. rewrite be_val_1.
  destruct (negb _) eqn:E; [reflexivity|]. exfalso. apply H. apply b2z_inj.
  unfold C_PROTOCOL_ID in E. change (b2z x82) with 130. lia.
Qed.

Lemma c_version_refused cf b1 tail x o d : state x = CLEAR ->
  b2z b1 mod 32 <> 1 ->
  c_readMessageBegin cf (mkst x (x82 :: b1 :: tail) o d)
  = (Raise (EProtocol TP_BAD_VERSION), mkst x tail o d).
Proof.
  intros Hx H. unfold c_readMessageBegin, assert_state, c_readUByte, bind, get_px.
  cbn [px]. rewrite Hx. cbn [existsb cstate_eqb orb assert_]. unfold ret.
  rewrite readAll_1. unfold unpack_unsigned. rewrite be_val_1.
  change (negb (b2z x82 =? C_PROTOCOL_ID)) with false. cbv beta iota.
  rewrite readAll_1. cbv beta iota. rewrite be_val_1.
  unfold C_VERSION_MASK. change 31 with (2 ^ 5 - 1). rewrite land_ones by lia.
  change (2 ^ 5) with 32. unfold C_VERSION.
  destruct (negb _) eqn:E; [reflexivity|]. exfalso. lia.
Qed.
