(** The primitives of the C binary decoder read the binary wire format. *)
From Coq Require Import ZArith List Bool Lia.
From Coq Require Import Init.Byte.
From Coq Require Import ZifyBool ZifyNat ZifyN.
From Verif Require Import Base Bytes BytesFacts Utf8 Utf8Facts Proto Spec Laws
  RoundTrip Binary BinaryLaws SpecBinary CompactFacts WireFacts Ext ExtFacts
  ExtRead ExtReadGen.
Import ListNotations.
Open Scope Z_scope.

(** * Shared *)

Theorem utf8_replace_valid b s : utf8_decode b = Some s -> utf8_replace b = s.
Proof.
  remember (length b) as n eqn:Hn. assert (Hle : (length b <= n)%nat) by lia.
  clear Hn. revert b s Hle. induction n as [|n IH]; intros b s Hle H.
  - destruct b; [|cbn in Hle; lia]. cbn in H. apply some_inj in H. subst. reflexivity.
  - destruct b as [|b0 r0]; [cbn in H; apply some_inj in H; subst; reflexivity|].
    cbn [length] in Hle. cbn [utf8_decode utf8_replace] in H |- *.
    destruct (b2z b0 <? 128) eqn:E0.
    { destruct (utf8_decode r0) as [s0|] eqn:D; [|discriminate].
      apply some_inj in H. subst s. f_equal. apply IH; [lia|exact D]. }
    destruct (in_range 194 223 b0) eqn:E1.
    { destruct r0 as [|b1 r1]; [discriminate|]. cbn [length] in Hle.
      destruct (cont b1); [|discriminate].
      destruct (utf8_decode r1) as [s0|] eqn:D; [|discriminate].
      apply some_inj in H. subst s. f_equal. apply IH; [lia|exact D]. }
    destruct (in_range 224 239 b0) eqn:E2.
    { destruct r0 as [|b1 [|b2 r2]]; try discriminate. cbn [length] in Hle.
      destruct (cont b1), (cont b2); try discriminate; cbn [andb] in *;
      destruct (negb (b2z b0 =? 224) || _); try discriminate; cbn [andb] in *;
      destruct (negb (b2z b0 =? 237) || _); try discriminate.
      destruct (utf8_decode r2) as [s0|] eqn:D; [|discriminate].
      apply some_inj in H. subst s. f_equal. apply IH; [lia|exact D]. }
    destruct (in_range 240 244 b0) eqn:E3; [|discriminate].
    destruct r0 as [|b1 [|b2 [|b3 r3]]]; try discriminate. cbn [length] in Hle.
    destruct (cont b1), (cont b2), (cont b3); try discriminate; cbn [andb] in *;
    destruct (negb (b2z b0 =? 240) || _); try discriminate; cbn [andb] in *;
    destruct (negb (b2z b0 =? 244) || _); try discriminate.
    destruct (utf8_decode r3) as [s0|] eqn:D; [|discriminate].
    apply some_inj in H. subst s. f_equal. apply IH; [lia|exact D].
Qed.

Lemma readBytes_n {X} n bs tail (x : X) o d : n = Z.of_nat (length bs) ->
  readBytes n (mkst x (bs ++ tail) o d) = (Ok bs, mkst x tail o d).
Proof.
  intros ->. unfold readBytes. cbn [inp out px depth].
  destruct (_ <? 0) eqn:E; [lia|]. rewrite app_length.
  destruct (_ <=? _) eqn:G; [|lia].
  rewrite Nat2Z.id, firstn_app, skipn_app, Nat.sub_diag, firstn_all, skipn_all.
  cbn [firstn skipn]. rewrite app_nil_r. reflexivity.
Qed.

Lemma readU8_ok {X} z tail (x : X) o d : 0 <= z < 256 ->
  readU8 (mkst x (z2b z :: tail) o d) = (Ok z, mkst x tail o d).
Proof.
  intros H. unfold readU8, bind.
  pose proof (readBytes_n 1 [z2b z] tail x o d eq_refl) as E. cbn [app] in E.
  rewrite E. unfold ret. rewrite be_val_1, b2z_z2b, Z.mod_small by lia. reflexivity.
Qed.

Lemma readU8_b {X} b tail (x : X) o d :
  readU8 (mkst x (b :: tail) o d) = (Ok (b2z b), mkst x tail o d).
Proof.
  rewrite <- (z2b_b2z b) at 1. apply readU8_ok, b2z_range.
Qed.

Lemma skip_n {X} n bs tail (x : X) o d : n = Z.of_nat (length bs) ->
  SKIPBYTES n (mkst x (bs ++ tail) o d) = (Ok tt, mkst x tail o d).
Proof. intros H. unfold SKIPBYTES, bind. rewrite readBytes_n by assumption. reflexivity. Qed.

Lemma of_memory_be big n z : hton big n (of_memory big (be_bytes n z)) = uN n z.
Proof.
  unfold hton, of_memory, uN. rewrite !pow2_256. destruct big.
  - rewrite be_val_be_bytes, Z.mod_mod by (pose proof (pow256_pos n); lia). reflexivity.
  - pose proof (le_val_range (be_bytes n z)) as R. rewrite be_bytes_length in R.
    rewrite (Z.mod_small (le_val _)) by exact R.
    pose proof (le_bytes_le_val (be_bytes n z)) as K. rewrite be_bytes_length in K.
    rewrite K. exact (be_val_be_bytes n z).
Qed.

Lemma of_memory_be8 big z : htonll big (of_memory big (be_bytes 8 z)) = uN 8 z.
Proof.
  unfold htonll, of_memory, in_memory. destruct big.
  - rewrite be_uN, !be_val_be_bytes. unfold uN. rewrite pow2_256.
    apply Z.mod_mod. pose proof (pow256_pos 8); lia.
  - rewrite le_uN. pose proof (le_bytes_le_val (be_bytes 8 z)) as K.
    rewrite be_bytes_length in K. rewrite K, be_val_be_bytes. unfold uN.
    rewrite pow2_256. reflexivity.
Qed.

Lemma of_memory_le8 big z : htolell big (of_memory big (le_bytes 8 z)) = uN 8 z.
Proof.
  unfold htolell, of_memory, in_memory. destruct big.
  - rewrite be_uN. pose proof (be_bytes_be_val (le_bytes 8 z)) as K.
    rewrite le_bytes_length in K. rewrite K, le_val_le_bytes. unfold uN.
    rewrite pow2_256. reflexivity.
  - rewrite le_uN, !le_val_le_bytes. unfold uN. rewrite pow2_256.
    apply Z.mod_mod. pose proof (pow256_pos 8); lia.
Qed.

Lemma sN_uN n z : sN n (uN n z) = sN n z.
Proof.
  unfold sN, uN. rewrite Z.mod_mod; [reflexivity|]. apply Z.pow_nonzero; lia.
Qed.

Lemma uN_small n z : 0 <= z < 2 ^ (8 * Z.of_nat n) -> uN n z = z.
Proof. apply Z.mod_small. Qed.

(** [SL] and [CL] are at most 2^31-1 and at most the configured limits. *)
Definition x_limits (sl cl : option Z) (SL CL : Z) : Prop :=
  SL <= 2147483647 /\ CL <= 2147483647 /\ lim_ok sl SL /\ lim_ok cl CL.

Lemma check_limit_ok {X} lim n L (s : st X) : 0 <= n <= L -> L <= 2147483647 ->
  lim_ok lim L -> checkLengthLimit n (as_limit lim) s = (Ok tt, s).
Proof.
  intros Hn HL Hl. unfold checkLengthLimit. rewrite s32_id by lia.
  destruct (n <? 0) eqn:E; [lia|].
  destruct (n >? as_limit lim) eqn:G; [|reflexivity].
  exfalso. unfold as_limit, lim_ok in *. destruct lim as [l|]; [|lia].
  destruct (_ && _) eqn:K in G; lia.
Qed.

(** * Binary *)

Section B.
Variable big : bool.
Variables sl cl : option Z.
Variables SL CL : Z.
Hypothesis Hlim : x_limits sl cl SL CL.
Notation D := (dbinary big sl cl).
Notation RB := (Rd (fun (_ _ : unit) i rest => i = rest) anyT).

Lemma x_i8 z tail x o d : -128 <= z <= 127 ->
  eb_readI8 (mkst x (be_bytes 1 z ++ tail) o d) = (Ok z, mkst x tail o d).
Proof.
  intros H. unfold eb_readI8, bind. rewrite be_bytes_1. cbn [app].
  rewrite readU8_b, b2z_z2b. unfold ret.
  change 256 with (2 ^ (8 * Z.of_nat 1)). fold (uN 1 z).
  rewrite sN_uN, sN_id; [reflexivity|lia|apply in1; lia].
Qed.

Lemma x_i16 z tail x o d : in_signed 2 z ->
  eb_readI16 big (mkst x (be_bytes 2 z ++ tail) o d) = (Ok z, mkst x tail o d).
Proof.
  intros H. unfold eb_readI16, bind.
  rewrite readBytes_n by (rewrite be_bytes_length; reflexivity). unfold ret.
  rewrite of_memory_be, sN_uN, sN_id; [reflexivity|lia|exact H].
Qed.

Lemma x_i32 z tail x o d : in_signed 4 z ->
  eb_readI32 big (mkst x (be_bytes 4 z ++ tail) o d) = (Ok z, mkst x tail o d).
Proof.
  intros H. unfold eb_readI32, bind.
  rewrite readBytes_n by (rewrite be_bytes_length; reflexivity). unfold ret.
  rewrite of_memory_be, sN_uN, sN_id; [reflexivity|lia|exact H].
Qed.

Lemma x_i64 z tail x o d :
  eb_readI64 big (mkst x (be_bytes 8 z ++ tail) o d) = (Ok (sN 8 z), mkst x tail o d).
Proof.
  unfold eb_readI64, bind.
  rewrite readBytes_n by (rewrite be_bytes_length; reflexivity). unfold ret.
  rewrite of_memory_be8, sN_uN. reflexivity.
Qed.

Lemma x_string b tail x o d : len_le b SL = true ->
  eb_readString big sl
    (mkst x ((be_bytes 4 (Z.of_nat (length b)) ++ b) ++ tail) o d)
  = (Ok b, mkst x tail o d).
Proof.
  intros H. unfold len_le in H. destruct Hlim as (H1 & _ & H2 & _).
  unfold eb_readString. rewrite <- app_assoc. unfold bind at 1.
  rewrite x_i32 by (apply in4; lia).
  unfold bind. rewrite (check_limit_ok sl _ SL) by (assumption || lia).
  apply readBytes_n. reflexivity.
Qed.

Lemma x_skipString b tail x o d : len_le b SL = true ->
  eb_skipString big
    (mkst x ((be_bytes 4 (Z.of_nat (length b)) ++ b) ++ tail) o d)
  = (Ok tt, mkst x tail o d).
Proof.
  intros H. unfold len_le in H. destruct Hlim as (H1 & _).
  unfold eb_skipString. rewrite <- app_assoc. unfold bind at 1.
  rewrite x_i32 by (apply in4; lia). apply skip_n. reflexivity.
Qed.

Lemma xr_base c t v : base_ty t = true -> base_ok SL t v = true ->
  RB c c (be_base c t v) (read_base (proto_of D) t) v.
Proof.
  intros Hb Hv tail _ x i o d ->. exists x, tail. split; [|reflexivity].
  rewrite read_base_of by assumption.
  destruct t; try discriminate Hb; destruct v; try discriminate Hv;
    cbn [decode_base be_base base_okd] in *; cbn [dbinary d_readBool d_readI8
      d_readI16 d_readI32 d_readI64 d_readDouble d_readString d_readUuid];
    unfold bind at 1.
  - unfold eb_readBool, bind. rewrite be_bytes_1. cbn [app].
    rewrite readU8_b. destruct b; reflexivity.
  - rewrite x_i8 by (apply between_spec, Hv). reflexivity.
  - rewrite x_i16 by (apply in2, between_spec, Hv). reflexivity.
  - rewrite x_i32 by (apply in4, between_spec, Hv). reflexivity.
  - rewrite x_i64, sN_id by (lia || apply in8, between_spec, Hv). reflexivity.
  - unfold eb_readDouble, bind. rewrite x_i64. unfold ret.
    rewrite uN_sN, uN_small by (lia || apply between_spec in Hv;
      change (2 ^ _) with 18446744073709551616; lia). reflexivity.
  - destruct (utf8_encode s) as [b|] eqn:E; [|discriminate].
    rewrite x_string by assumption. unfold ret.
    rewrite (utf8_replace_valid b s (utf8_decode_encode s b E)). reflexivity.
  - rewrite x_string by assumption. reflexivity.
  - unfold eb_readUuid. rewrite readBytes_n by lia. reflexivity.
Qed.

Lemma xs_base c t v : base_ty t = true -> base_ok SL t v = true ->
  RB c c (be_base c t v) (sk_base D t) tt.
Proof.
  intros Hb Hv tail _ x i o d ->. exists x, tail. split; [|reflexivity].
  destruct t; try discriminate Hb; destruct v; try discriminate Hv;
    cbn [sk_base be_base base_okd] in *; cbn [dbinary d_skipBool d_skipByte
      d_skipI16 d_skipI32 d_skipI64 d_skipDouble d_skipString d_skipUuid];
    try (apply skip_n; rewrite ?be_bytes_length; lia).
  - destruct (utf8_encode s) as [b|]; [|discriminate]. apply x_skipString, Hv.
  - apply x_skipString, Hv.
Qed.

Lemma code_byte t : 0 <= code t < 256.
Proof. pose proof (code_range t). lia. Qed.

Lemma xr_lbeg t n x tail o d : 0 <= n <= CL ->
  eb_readListBegin big cl
    (mkst x ((be_bytes 1 (code t) ++ be_bytes 4 n) ++ tail) o d)
  = (Ok (code t, n), mkst x tail o d).
Proof.
  intros Hn. destruct Hlim as (_ & Hc & _ & H2).
  rewrite <- app_assoc, be_bytes_1. cbn [app]. unfold eb_readListBegin.
  unfold bind at 1. rewrite readU8_ok by apply code_byte.
  unfold bind at 1. rewrite x_i32 by (apply in4; lia).
  unfold bind. rewrite (check_limit_ok cl _ CL) by (assumption || lia). reflexivity.
Qed.

Definition xbinary_laws : laws (proto_of D) SL CL.
Proof.
  unshelve refine (mklaws unit (proto_of D) SL CL unit
    (fun _ _ => False) (fun _ _ i rest => i = rest) (fun _ => True) (fun _ => true) (fun _ => true) id16
    (fun c => c) (fun c => c) (fun c _ _ => c) (fun c _ => c) (fun c => c)
    (fun c => c) (fun c => c)
    (fun _ => True) (fun _ => True) (fun _ => True) (fun _ _ => True)
    (fun _ _ => True) (fun _ _ => True) (fun _ _ => True)
    be_base (fun _ => []) (fun _ id t _ => be_bytes 1 t ++ be_bytes 2 id)
    [] (be_bytes 1 0) []
    (fun _ t n => be_bytes 1 t ++ be_bytes 4 n) []
    (fun _ k t n => be_bytes 1 k ++ be_bytes 1 t ++ be_bytes 4 n) []
    (fun k t n => (k, t, n))
    _ _ _ _ _ _ _ _ _ _ _ _ _ _ _
    _ _ _ _ _ _ _ _ _ _ _ _
    _ _ _ _ _ _ _ _ _ _ _ _ _
    _ _
    _ _ _ _ _ _ _
    _ _ _ _ _); try (intros; exact I);
    try (lazymatch goal with |- context [Wr] =>
      unfold Wr; cbn beta; intros; contradiction end).
  - intros c _. exists c. split; [exact I|reflexivity].
  - intros c t v _. apply xr_base.
  - intros c b _ Hv _. eexists. intros tail _ x i o d ->. exists x, tail.
    split; [|reflexivity]. cbn [be_base base_okd proto_of readString] in *.
    cbn [dbinary d_readString]. unfold bind. rewrite x_string by assumption. reflexivity.
  - intros c _ tail _ x i o d ->. exists x, tail. auto.
  - intros c f id t ob _ Hid _ tail _ x i o d ->. exists x, tail.
    split; [|reflexivity]. cbn [proto_of readFieldBegin dbinary d_readFieldBegin].
    unfold eb_readFieldBegin.
    apply between_spec in Hid.
    rewrite <- app_assoc, be_bytes_1. cbn [app]. unfold bind at 1.
    rewrite readU8_ok by apply code_byte.
    replace (code t =? T_STOP) with false by (destruct t; reflexivity).
    unfold bind at 1. rewrite x_i16 by (apply in2; lia). reflexivity.
  - intros c f id ob _ tail _ x i o d ->. exists x, tail. auto.
  - intros c f _ tail. exists 0. intros t -> x i o d ->.
    exists x, ([] ++ tail). split; [|reflexivity].
    cbn [proto_of readFieldBegin dbinary d_readFieldBegin]. unfold eb_readFieldBegin.
    rewrite be_bytes_1. cbn [app].
    unfold bind at 1. rewrite readU8_ok by lia. reflexivity.
  - intros c f _ _ tail _ x i o d ->. exists x, tail. auto.
  - intros c t n _ Hn tail _ x i o d ->. exists x, tail. split; [|reflexivity].
    apply xr_lbeg; assumption.
  - intros c e _ _ tail _ x i o d ->. exists x, tail. auto.
  - intros c t n _ Hn tail _ x i o d ->. exists x, tail. split; [|reflexivity].
    apply xr_lbeg; assumption.
  - intros c e _ _ tail _ x i o d ->. exists x, tail. auto.
  - intros c k t n _ Hn tail _ x i o d ->. exists x, tail. split; [|reflexivity].
    cbn [proto_of readMapBegin dbinary d_readMapBegin]. unfold eb_readMapBegin.
    rewrite <- !app_assoc, !be_bytes_1. cbn [app].
    destruct Hlim as (_ & Hc & _ & H2).
    unfold bind at 1. rewrite readU8_ok by apply code_byte.
    unfold bind at 1. rewrite readU8_ok by apply code_byte.
    unfold bind at 1. rewrite x_i32 by (apply in4; lia).
    unfold bind. rewrite (check_limit_ok cl _ CL) by (assumption || lia). reflexivity.
  - intros c e _ _ tail _ x i o d ->. exists x, tail. auto.
  - reflexivity.
  - reflexivity.
  - intros c t v _ Hb Hv.
    destruct t; try discriminate Hb; destruct v; try discriminate Hv;
      cbn [be_base base_okd] in *; rewrite ?app_length, ?be_bytes_length; try lia.
    destruct (utf8_encode s); [|discriminate].
    rewrite app_length, be_bytes_length. lia.
  - intros. rewrite app_length, be_bytes_length. lia.
  - cbn [length app]. rewrite app_nil_r, be_bytes_length. lia.
  - intros. rewrite app_length, be_bytes_length. lia.
  - intros. rewrite app_length, be_bytes_length. lia.
Defined.

Variable env : schema.

Lemma enc_xbinary v : forall t, enc xbinary_laws env tt t v = sb_value env t v.
Proof.
  induction v using value_rect'; intros t.
  1-6: destruct t; cbn [enc e_base xbinary_laws be_base sb_value];
    unfold sb_string, sb_binary; rewrite ?be2, ?be4, ?be8; try reflexivity.
  - destruct b; reflexivity.
  - destruct (utf8_encode s); rewrite ?be4; reflexivity.
  - destruct t; try reflexivity.
    rewrite enc_list. cbn [sb_value]. cbn [e_lbeg xbinary_laws].
    rewrite be4, sb_type_code, <- app_assoc. do 2 f_equal.
    cbn [inL xbinary_laws].
    induction H as [|x l Hx _ IH]; [reflexivity|].
    cbn [enc_elems map concat]. rewrite Hx. f_equal. exact IH.
  - destruct t; try reflexivity.
    rewrite enc_set. cbn [sb_value]. cbn [e_lbeg xbinary_laws].
    rewrite be4, sb_type_code, <- app_assoc. do 2 f_equal.
    cbn [inL xbinary_laws].
    induction H as [|x l Hx _ IH]; [reflexivity|].
    cbn [enc_elems map concat]. rewrite Hx. f_equal. exact IH.
  - destruct t; try reflexivity.
    rewrite enc_map. cbn [sb_value]. cbn [e_mbeg xbinary_laws].
    rewrite be4, !sb_type_code, <- !app_assoc. do 3 f_equal.
    cbn [inM xbinary_laws].
    induction H as [|[k x] l [Hk Hx] _ IH]; [reflexivity|].
    cbn [enc_items map concat fst snd] in *. rewrite Hk, Hx, <- app_assoc.
    do 2 f_equal. exact IH.
  - destruct t; try reflexivity.
    cbn [sb_value]. destruct (nth_error env n) as [ds|] eqn:E.
    2:{ cbn [enc]. rewrite E. reflexivity. }
    rewrite (enc_struct _ _ _ _ _ _ _ E). cbn [e_sbeg xbinary_laws inS app].
    clear E. revert ds. induction H as [|f fs Hf _ IH]; intros ds.
    + destruct ds; reflexivity.
    + destruct ds as [|d ds].
      { destruct f; reflexivity. }
      destruct f as [x|]; cbn [enc_fields].
      * cbn [e_fbeg e_fend aft inF xbinary_laws] in *. rewrite Hf, be2, sb_type_code.
        rewrite <- !app_assoc. do 3 f_equal. apply IH.
      * apply IH.
Qed.
End B.
