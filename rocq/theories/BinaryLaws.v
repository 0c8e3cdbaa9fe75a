(** TBinaryProtocol meets the laws of Laws.v. *)
From Coq Require Import ZArith List Bool Lia.
From Coq Require Import Init.Byte.
From Coq Require Import ZifyBool ZifyNat ZifyN.
From Verif Require Import Base Bytes BytesFacts Utf8 Utf8Facts Proto Spec Laws
  Binary.
Import ListNotations.
Open Scope Z_scope.

(** * Reading a prefix *)

Lemma readAll_app X bs tail (x : X) o d :
  readAll (Z.of_nat (length bs)) (mkst x (bs ++ tail) o d)
  = (Ok bs, mkst x tail o d).
Proof.
  unfold readAll. destruct (Z.of_nat (length bs) <=? 0) eqn:E.
  - destruct bs as [|b bs]; [reflexivity|].
    exfalso. change (length (b :: bs)) with (S (length bs)) in E. lia.
  - cbn [inp out px depth]. rewrite app_length.
    destruct (Z.of_nat (length bs) <=? Z.of_nat (length bs + length tail))
      eqn:G; [|lia].
    rewrite Nat2Z.id, firstn_app, skipn_app, Nat.sub_diag.
    rewrite firstn_all, skipn_all. cbn [firstn skipn].
    rewrite app_nil_r. reflexivity.
Qed.

Lemma readAll_n X n bs tail (x : X) o d : n = Z.of_nat (length bs) ->
  readAll n (mkst x (bs ++ tail) o d) = (Ok bs, mkst x tail o d).
Proof. intros ->. apply readAll_app. Qed.

Lemma check_length_ok X lim n (s : st X) : 0 <= n ->
  match lim with Some l => n <= l | None => True end ->
  check_length lim n s = (Ok tt, s).
Proof.
  intros H0 Hl. unfold check_length. destruct (n <? 0) eqn:E; [lia|].
  destruct lim as [l|]; [|reflexivity]. destruct (n >? l) eqn:G; [lia|].
  reflexivity.
Qed.

Definition lim_ok (lim : option Z) (n : Z) : Prop :=
  match lim with Some l => n <= l | None => True end.

(** [SL] and [CL] are at most 2^31-1 and at most the configured limits. *)
Definition b_limits (cf : bconf) (SL CL : Z) : Prop :=
  SL <= 2147483647 /\ CL <= 2147483647
  /\ lim_ok (string_length_limit cf) SL
  /\ lim_ok (container_length_limit cf) CL.

Definition utf8_valid (b : list byte) : bool :=
  match utf8_decode b with Some _ => true | None => false end.

Section BinaryLaws.
Variable cf : bconf.
Variables SL CL : Z.
Hypothesis Hlim : b_limits cf SL CL.

Notation WB := (Wr (fun _ _ : unit => True)).
Notation RB := (Rd (fun (_ _ : unit) i rest => i = rest) anyT).

Lemma Wr_twrite c c' bs (m : M unit unit) :
  (forall s, m s = (Ok tt, mkst (px s) (inp s) (out s ++ bs) (depth s))) ->
  WB c c' bs m.
Proof. intros H x i o d _. exists x. rewrite H. auto. Qed.

Lemma writeInt n z (s : st unit) : in_signed n z ->
  (buff <- pack_signed n z ;; twrite buff) s
  = (Ok tt, mkst (px s) (inp s) (out s ++ be_bytes n z) (depth s)).
Proof.
  intros H. unfold bind. rewrite pack_signed_ok by assumption. reflexivity.
Qed.

Lemma readInt n z tail (x : unit) o d : (0 < n)%nat -> in_signed n z ->
  (buff <- readAll (Z.of_nat n) ;; ret (unpack_signed n buff))
    (mkst x (be_bytes n z ++ tail) o d)
  = (Ok z, mkst x tail o d).
Proof.
  intros Hn H. unfold bind.
  rewrite readAll_n by (rewrite be_bytes_length; reflexivity).
  unfold ret. rewrite unpack_pack by assumption. reflexivity.
Qed.

Lemma in1 z : -128 <= z <= 127 -> in_signed 1 z.
Proof. unfold in_signed. change (2 ^ _) with 128. lia. Qed.
Lemma in2 z : -32768 <= z <= 32767 -> in_signed 2 z.
Proof. unfold in_signed. change (2 ^ _) with 32768. lia. Qed.
Lemma in4 z : -2147483648 <= z <= 2147483647 -> in_signed 4 z.
Proof. unfold in_signed. change (2 ^ _) with 2147483648. lia. Qed.
Lemma in8 z : -9223372036854775808 <= z <= 9223372036854775807 ->
  in_signed 8 z.
Proof. unfold in_signed. change (2 ^ _) with 9223372036854775808. lia. Qed.

Lemma code_range t : 0 <= code t <= 16.
Proof. destruct t; cbv; split; congruence. Qed.

Definition be_base (_ : unit) (t : ty) (v : value) : list byte :=
  match t, v with
  | TBool, VBool b => be_bytes 1 (if b then 1 else 0)
  | TByte, VInt z => be_bytes 1 z
  | TI16, VInt z => be_bytes 2 z
  | TI32, VInt z => be_bytes 4 z
  | TI64, VInt z => be_bytes 8 z
  | TDouble, VDouble d => be_bytes 8 d
  | TString, VStr s =>
      match utf8_encode s with
      | Some b => be_bytes 4 (Z.of_nat (length b)) ++ b
      | None => []
      end
  | TBinary, VBin b => be_bytes 4 (Z.of_nat (length b)) ++ b
  | TUuid, VUuid b => b
  | _, _ => []
  end.

Lemma b_writeBinary_ok b (s : st unit) : len_le b SL = true ->
  b_writeBinary b s = (Ok tt, mkst (px s) (inp s)
    (out s ++ be_bytes 4 (Z.of_nat (length b)) ++ b) (depth s)).
Proof.
  intros H. unfold len_le in H. destruct Hlim as (H1 & _).
  unfold b_writeBinary, b_writeI32. unfold bind at 1.
  rewrite writeInt by (apply in4; lia). unfold twrite.
  cbn [px inp out depth]. rewrite app_assoc. reflexivity.
Qed.

Lemma b_readBinary_ok b tail x o d : len_le b SL = true ->
  b_readBinary cf
    (mkst x ((be_bytes 4 (Z.of_nat (length b)) ++ b) ++ tail) o d)
  = (Ok b, mkst x tail o d).
Proof.
  intros H. unfold len_le in H. destruct Hlim as (H1 & _ & H2 & _).
  unfold b_readBinary, b_readI32. rewrite <- app_assoc. unfold bind at 1.
  rewrite (readInt 4) by (lia || apply in4; lia).
  unfold bind. rewrite check_length_ok.
  - apply readAll_app.
  - lia.
  - unfold lim_ok in H2. destruct (string_length_limit cf); [lia|exact I].
Qed.

Lemma between_spec lo hi z : between lo hi z = true -> lo <= z <= hi.
Proof. unfold between. lia. Qed.

Lemma be8_double d tail x o dd : 0 <= d <= 18446744073709551615 ->
  b_readDouble (mkst x (be_bytes 8 d ++ tail) o dd)
  = (Ok d, mkst x tail o dd).
Proof.
  intros H. unfold b_readDouble, bind.
  rewrite readAll_n by (rewrite be_bytes_length; reflexivity).
  unfold ret. rewrite be_val_be_bytes.
  rewrite Z.mod_small; [reflexivity|].
  change (256 ^ Z.of_nat 8) with 18446744073709551616. lia.
Qed.

Lemma bw_base c t v : base_ty t = true -> base_ok SL t v = true ->
  WB c c (be_base c t v) (write_base (binary cf) t v).
Proof.
  intros Hb Hv. apply Wr_twrite. intros s.
  destruct t; try discriminate Hb; destruct v; try discriminate Hv;
    cbn [write_base be_base base_okd] in *; cbn [binary writeBool writeByte
      writeI16 writeI32 writeI64 writeDouble writeString writeBinary writeUuid].
  - destruct b; apply writeInt; apply in1; lia.
  - apply writeInt, in1, between_spec, Hv.
  - apply writeInt, in2, between_spec, Hv.
  - apply writeInt, in4, between_spec, Hv.
  - apply writeInt, in8, between_spec, Hv.
  - reflexivity.
  - unfold b_writeString, bind, encode_utf8.
    destruct (utf8_encode s0) as [b|] eqn:E; [|discriminate].
    apply b_writeBinary_ok. assumption.
  - apply b_writeBinary_ok. assumption.
  - reflexivity.
Qed.

Lemma br_base c t v : base_ty t = true -> base_ok SL t v = true ->
  RB c c (be_base c t v) (read_base (binary cf) t) v.
Proof.
  intros Hb Hv tail _ x i o d ->. exists x, tail. split; [|reflexivity].
  destruct t; try discriminate Hb; destruct v; try discriminate Hv;
    cbn [read_base be_base base_okd] in *; cbn [binary readBool readByte
      readI16 readI32 readI64 readDouble readString readBinary readUuid];
    unfold bind at 1.
  - unfold b_readBool, b_readByte. unfold bind at 1. rewrite (readInt 1).
    + destruct b; reflexivity.
    + lia.
    + destruct b; apply in1; lia.
  - unfold b_readByte. rewrite (readInt 1); [reflexivity|lia|].
    apply in1, between_spec, Hv.
  - unfold b_readI16. rewrite (readInt 2); [reflexivity|lia|].
    apply in2, between_spec, Hv.
  - unfold b_readI32. rewrite (readInt 4); [reflexivity|lia|].
    apply in4, between_spec, Hv.
  - unfold b_readI64. rewrite (readInt 8); [reflexivity|lia|].
    apply in8, between_spec, Hv.
  - rewrite be8_double by (apply between_spec, Hv). reflexivity.
  - destruct (utf8_encode s) as [b|] eqn:E; [|discriminate].
    unfold b_readString, bind.
    rewrite b_readBinary_ok by assumption. unfold decode_utf8.
    rewrite (utf8_decode_encode s b E). reflexivity.
  - rewrite b_readBinary_ok by assumption. reflexivity.
  - unfold b_readUuid. rewrite readAll_n by lia. reflexivity.
Qed.

Lemma br_skbin c b : base_ok SL TBinary (VBin b) = true ->
  utf8_valid b = true ->
  exists s, RB c c (be_base c TBinary (VBin b)) (readString (binary cf)) s.
Proof.
  intros Hv Hu. unfold utf8_valid in Hu.
  destruct (utf8_decode b) as [s|] eqn:E; [|discriminate].
  exists s. intros tail _ x i o d ->. exists x, tail. split; [|reflexivity].
  cbn [base_okd be_base] in *. cbn [binary readString].
  unfold b_readString, bind. rewrite b_readBinary_ok by assumption.
  unfold decode_utf8. rewrite E. reflexivity.
Qed.

Lemma bw_fbeg c t id : between (-32768) 32767 id = true ->
  WB c c (be_bytes 1 (code t) ++ be_bytes 2 id)
     (writeFieldBegin (binary cf) (code t) id).
Proof.
  intros Hid. apply between_spec in Hid. pose proof (code_range t).
  apply Wr_twrite. intros s.
  cbn [binary writeFieldBegin]. unfold b_writeFieldBegin, b_writeByte, b_writeI16.
  unfold bind at 1. rewrite (writeInt 1) by (apply in1; lia).
  rewrite (writeInt 2) by (apply in2; lia). cbn [px inp out depth].
  rewrite <- app_assoc. reflexivity.
Qed.

Lemma bw_lbeg t n (s : st unit) : 0 <= n <= CL ->
  (b_writeByte (code t) ;;; b_writeI32 n) s =
  (Ok tt, mkst (px s) (inp s)
            (out s ++ be_bytes 1 (code t) ++ be_bytes 4 n) (depth s)).
Proof.
  intros Hn. pose proof (code_range t). destruct Hlim as (_ & Hc & _).
  unfold b_writeByte, b_writeI32.
  unfold bind at 1. rewrite (writeInt 1) by (apply in1; lia).
  rewrite (writeInt 4) by (apply in4; lia). cbn [px inp out depth].
  rewrite <- app_assoc. reflexivity.
Qed.

Lemma br_lbeg t n x tail o d : 0 <= n <= CL ->
  (etype <- b_readByte ;;
   size <- b_readI32 ;;
   check_length (container_length_limit cf) size ;;;
   ret (etype, size))
    (mkst x ((be_bytes 1 (code t) ++ be_bytes 4 n) ++ tail) o d)
  = (Ok (code t, n), mkst x tail o d).
Proof.
  intros Hn. pose proof (code_range t). destruct Hlim as (_ & Hc & _ & H2).
  rewrite <- app_assoc. unfold b_readByte, b_readI32.
  unfold bind at 1. rewrite (readInt 1) by (lia || apply in1; lia).
  unfold bind at 1. rewrite (readInt 4) by (lia || apply in4; lia).
  unfold bind. rewrite check_length_ok; [reflexivity|lia|].
  unfold lim_ok in H2. destruct (container_length_limit cf); [lia|exact I].
Qed.

Definition binary_laws : laws (binary cf) SL CL.
Proof.
  unshelve refine (mklaws unit (binary cf) SL CL unit
    (fun _ _ => True) (fun _ _ i rest => i = rest) (fun _ => True) utf8_valid (fun _ => true) id16
    (fun c => c) (fun c => c) (fun c _ _ => c) (fun c _ => c) (fun c => c)
    (fun c => c) (fun c => c)
    (fun _ => True) (fun _ => True) (fun _ => True) (fun _ _ => True)
    (fun _ _ => True) (fun _ _ => True) (fun _ _ => True)
    be_base (fun _ => []) (fun _ id t _ => be_bytes 1 t ++ be_bytes 2 id)
    [] (be_bytes 1 0) []
    (fun _ t n => be_bytes 1 t ++ be_bytes 4 n) []
    (fun _ k t n => be_bytes 1 k ++ be_bytes 1 t ++ be_bytes 4 n) []
    (fun k t n => (k, t, n))
    _ _ _ _ _ _ _ _ _ _ _ _ _ _ _
    _ _ _ _ _ _ _ _ _ _ _ _
    _ _ _ _ _ _ _ _ _ _ _ _ _
    _ _
    _ _ _ _ _ _ _
    _ _ _ _ _); try (intros; exact I).
  - intros c _. exists c. split; [exact I|reflexivity].
  - intros c t v _ _. apply bw_base.
  - intros c _. apply Wr_twrite. intros []. rewrite app_nil_r. reflexivity.
  - intros c f id t _ Hid _. apply bw_fbeg; assumption.
  - intros c f id b _ Hid x i o d _. exists x. split; [|exact I].
    destruct (bw_fbeg c TBool id Hid x i o d I) as ([] & E & _).
    destruct (bw_base c TBool (VBool b) eq_refl eq_refl tt i
       (o ++ be_bytes 1 (code TBool) ++ be_bytes 2 id) d I) as ([] & E2 & _).
    unfold bind. change T_BOOL with (code TBool). rewrite E.
    cbn [write_base] in E2. rewrite E2.
    rewrite <- app_assoc. destruct x. reflexivity.
  - intros c f id ob _. apply Wr_twrite. intros []. rewrite app_nil_r. reflexivity.
  - intros c f _ _. apply Wr_twrite. intros s.
    cbn [binary writeFieldStop writeStructEnd]. unfold b_writeFieldStop, b_pass.
    unfold bind at 1. unfold b_writeByte.
    rewrite (writeInt 1) by (apply in1; unfold T_STOP; lia). reflexivity.
  - intros c t n _ Hn. apply Wr_twrite. intros s. apply bw_lbeg; assumption.
  - intros c e _ _. apply Wr_twrite. intros []. rewrite app_nil_r. reflexivity.
  - intros c t n _ Hn. apply Wr_twrite. intros s. apply bw_lbeg; assumption.
  - intros c e _ _. apply Wr_twrite. intros []. rewrite app_nil_r. reflexivity.
  - intros c k t n _ Hn. apply Wr_twrite. intros s.
    cbn [binary writeMapBegin]. unfold b_writeMapBegin.
    pose proof (code_range k).
    unfold bind at 1. unfold b_writeByte at 1.
    rewrite (writeInt 1) by (apply in1; lia). rewrite bw_lbeg by assumption.
    cbn [px inp out depth]. rewrite <- app_assoc. reflexivity.
  - intros c e _ _. apply Wr_twrite. intros []. rewrite app_nil_r. reflexivity.
  - intros c t v _. apply br_base.
  - intros c b _. apply br_skbin.
  - intros c _ tail _ x i o d ->. exists x, tail. auto.
  - intros c f id t ob _ Hid _ tail _ x i o d ->. exists x, tail.
    split; [|reflexivity]. cbn [binary readFieldBegin]. unfold b_readFieldBegin.
    apply between_spec in Hid. pose proof (code_range t).
    rewrite <- app_assoc. unfold bind at 1. unfold b_readByte, b_readI16.
    rewrite (readInt 1) by (lia || apply in1; lia).
    replace (code t =? T_STOP) with false by (destruct t; reflexivity).
    unfold bind at 1. rewrite (readInt 2) by (lia || apply in2; lia). reflexivity.
  - intros c f id ob _ tail _ x i o d ->. exists x, tail. auto.
  - intros c f _ tail. exists 0. intros t -> x i o d ->.
    exists x, ([] ++ tail). split; [|reflexivity].
    cbn [binary readFieldBegin]. unfold b_readFieldBegin, b_readByte.
    unfold bind at 1. rewrite (readInt 1) by (lia || apply in1; lia). reflexivity.
  - intros c f _ _ tail _ x i o d ->. exists x, tail. auto.
  - intros c t n _ Hn tail _ x i o d ->. exists x, tail. split; [|reflexivity].
    apply br_lbeg; assumption.
  - intros c e _ _ tail _ x i o d ->. exists x, tail. auto.
  - intros c t n _ Hn tail _ x i o d ->. exists x, tail. split; [|reflexivity].
    apply br_lbeg; assumption.
  - intros c e _ _ tail _ x i o d ->. exists x, tail. auto.
  - intros c k t n _ Hn tail _ x i o d ->. exists x, tail. split; [|reflexivity].
    cbn [binary readMapBegin]. unfold b_readMapBegin. rewrite <- app_assoc.
    pose proof (code_range k). unfold bind at 1. unfold b_readByte at 1.
    rewrite (readInt 1) by (lia || apply in1; lia).
    pose proof (br_lbeg t n x tail o d Hn) as E. revert E. unfold bind, ret.
    destruct (b_readByte _) as [[v|e|] s1]; try discriminate.
    destruct (b_readI32 _) as [[sz|e|] s2]; try discriminate.
    destruct (check_length _ _ _) as [[[]|e|] s3]; try discriminate.
    intros E. injection E as -> -> ->. reflexivity.
  - intros c e _ _ tail _ x i o d ->. exists x, tail. auto.
  - reflexivity.
  - reflexivity.
  - intros c t v _ Hb Hv.
    destruct t; try discriminate Hb; destruct v; try discriminate Hv;
      cbn [be_base base_okd] in *; rewrite ?app_length, ?be_bytes_length; try lia.
    destruct (utf8_encode s); [|discriminate].
    rewrite app_length, be_bytes_length. lia.
  - intros. rewrite app_length, be_bytes_length. lia.
  - cbn [length app]. rewrite app_nil_r, be_bytes_length. lia.
  - intros. rewrite app_length, be_bytes_length. lia.
  - intros. rewrite app_length, be_bytes_length. lia.
Defined.

End BinaryLaws.
