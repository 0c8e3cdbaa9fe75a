(** TCompactProtocol meets the laws of Laws.v. *)
From Coq Require Import ZArith List Bool Lia.
From Coq Require Import Init.Byte.
From Coq Require Import ZifyBool ZifyNat ZifyN.
From Verif Require Import Base Bytes BytesFacts Utf8 Utf8Facts Proto Spec Laws
  Binary BinaryLaws Compact CompactFacts SpecCompact.
Import ListNotations.
Open Scope Z_scope.

(** * Abstract positions *)

Inductive kind := KTop | KF | KV | KE | KB (b : bool).

Definition wst (k : kind) : cstate :=
  match k with
  | KTop => CLEAR | KF => FIELD_WRITE | KV => VALUE_WRITE
  | KE => CONTAINER_WRITE | KB _ => BOOL_WRITE
  end.

Definition rst (k : kind) : cstate :=
  match k with
  | KTop => CLEAR | KF => FIELD_READ | KV => VALUE_READ
  | KE => CONTAINER_READ | KB _ => BOOL_READ
  end.

Record cpos := mkcpos {
  cp_kind : kind;
  cp_last : Z;
  cp_structs : list (kind * Z);
  cp_conts : list kind }.

Definition c_wrep (c : cpos) (x : cst) : Prop :=
  state x = wst (cp_kind c) /\ last_fid x = cp_last c
  /\ structs x = map (fun p => (wst (fst p), snd p)) (cp_structs c)
  /\ containers x = map wst (cp_conts c).

Definition c_rrep (c : cpos) (x : cst) (i rest : list byte) : Prop :=
  i = rest
  /\ state x = rst (cp_kind c) /\ last_fid x = cp_last c
  /\ structs x = map (fun p => (rst (fst p), snd p)) (cp_structs c)
  /\ containers x = map rst (cp_conts c)
  /\ match cp_kind c with KB b => bool_value x = Some b | _ => True end.

Definition c_inS (c : cpos) : cpos :=
  mkcpos KF 0 ((cp_kind c, cp_last c) :: cp_structs c) (cp_conts c).
Definition c_inF (f : cpos) (id : Z) (ob : option bool) : cpos :=
  mkcpos (match ob with Some b => KB b | None => KV end) id (cp_structs f)
         (cp_conts f).
Definition c_aft (f : cpos) (id : Z) : cpos :=
  mkcpos KF id (cp_structs f) (cp_conts f).
Definition c_inL (c : cpos) : cpos :=
  mkcpos KE (cp_last c) (cp_structs c) (cp_kind c :: cp_conts c).

Definition c_spos (c : cpos) : Prop :=
  match cp_kind c with KTop | KV | KE => True | _ => False end.
Definition c_vpos (c : cpos) : Prop :=
  match cp_kind c with KV | KE => True | _ => False end.
Definition c_epos (c : cpos) : Prop := cp_kind c = KE.
Definition c_bpos (c : cpos) (b : bool) : Prop :=
  cp_kind c = KE \/ cp_kind c = KB b.
Definition c_fpos (c f : cpos) : Prop := exists l, f = c_aft (c_inS c) l.
Definition c_lpos (c e : cpos) : Prop := e = c_inL c.

(** * Bytes *)

(** Compact type of a TType code. *)
Definition ctc (t : Z) : Z := match CTYPES t with Some c => c | None => 0 end.

Definition ce_base (c : cpos) (t : ty) (v : value) : list byte :=
  match t, v with
  | TBool, VBool b =>
      match cp_kind c with KB _ => [] | _ => if b then [x01] else [x02] end
  | TByte, VInt z => [z2b z]
  | TI16, VInt z | TI32, VInt z | TI64, VInt z => varint (zigzag z)
  | TDouble, VDouble d => le_bytes 8 d
  | TString, VStr s =>
      match utf8_encode s with
      | Some b => varint (Z.of_nat (length b)) ++ b
      | None => []
      end
  | TBinary, VBin b => varint (Z.of_nat (length b)) ++ b
  | TUuid, VUuid b => b
  | _, _ => []
  end.

Definition ce_fbeg (f : cpos) (id t : Z) (ob : option bool) : list byte :=
  sc_field (cp_last f) id
    (match ob with Some true => 1 | Some false => 2 | None => ctc t end).

Definition c_mret (k t n : Z) : Z * Z * Z := if n =? 0 then (0, 0, 0) else (k, t, n).

Lemma CTYPES_code t : CTYPES (code t) = Some (sc_type t).
Proof. destruct t; reflexivity. Qed.
Lemma ctc_code t : ctc (code t) = sc_type t.
Proof. unfold ctc. rewrite CTYPES_code. reflexivity. Qed.
Lemma TTYPES_sc t : TTYPES (sc_type t) = Some (code t).
Proof. destruct t; reflexivity. Qed.
Lemma sc_type_range t : 1 <= sc_type t <= 13.
Proof. destruct t; cbn [sc_type]; lia. Qed.

Lemma lookup_ok t (s : st cst) : lookup_ctype (code t) s = (Ok (sc_type t), s).
Proof. unfold lookup_ctype. rewrite CTYPES_code. reflexivity. Qed.

Lemma bind_eq S A B (m : SM S A) (k : A -> SM S B) s a s' :
  m s = (Ok a, s') -> bind m k s = k a s'.
Proof. intros H. unfold bind. rewrite H. reflexivity. Qed.

Lemma nib hi lo : 0 <= lo < 16 -> Z.lor (Z.shiftl hi 4) lo = 16 * hi + lo.
Proof.
  intros H. rewrite Z.lor_comm, lor_add by (change (2 ^ 4) with 16; lia).
  change (2 ^ 4) with 16. lia.
Qed.

Lemma writeUByte_ok z (s : st cst) : 0 <= z < 256 ->
  c_writeUByte z s = (Ok tt, mkst (px s) (inp s) (out s ++ [z2b z]) (depth s)).
Proof.
  intros H. unfold c_writeUByte, bind.
  rewrite pack_unsigned_ok by (change (256 ^ _) with 256; lia). reflexivity.
Qed.

Lemma writeByte__ok z (s : st cst) : -128 <= z <= 127 ->
  c_writeByte_ z s = (Ok tt, mkst (px s) (inp s) (out s ++ [z2b z]) (depth s)).
Proof.
  intros H. unfold c_writeByte_, bind.
  rewrite pack_signed_ok by (apply in1; lia). reflexivity.
Qed.

Lemma readUByte_ok z tail x o d : 0 <= z < 256 ->
  c_readUByte (mkst x (z2b z :: tail) o d) = (Ok z, mkst x tail o d).
Proof.
  intros H. unfold c_readUByte, bind. rewrite readAll_1. unfold ret, unpack_unsigned.
  rewrite be_val_1, b2z_z2b, Z.mod_small by lia. reflexivity.
Qed.

Lemma readByte__ok z tail x o d : -128 <= z <= 127 ->
  c_readByte_ (mkst x (z2b z :: tail) o d) = (Ok z, mkst x tail o d).
Proof.
  intros H. unfold c_readByte_, bind. rewrite readAll_1. unfold ret.
  rewrite <- be_bytes_1, unpack_pack by (lia || apply in1; lia). reflexivity.
Qed.

Lemma pow128_10 : 128 ^ 10 = 1180591620717411303424.
Proof. reflexivity. Qed.

Lemma zz_small n : -9223372036854775808 <= n <= 9223372036854775807 ->
  0 <= zigzag n < 128 ^ 10.
Proof. rewrite pow128_10. unfold zigzag. intros H. destruct (0 <=? n) eqn:E; lia. Qed.

Lemma readZigZag_ok n tail x o d :
  -9223372036854775808 <= n <= 9223372036854775807 ->
  c_readZigZag (mkst x (varint (zigzag n) ++ tail) o d)
  = (Ok n, mkst x tail o d).
Proof.
  intros H. unfold c_readZigZag, bind. rewrite readVarint_ok by (apply zz_small; lia).
  unfold ret. rewrite fromZigZag_zigzag. reflexivity.
Qed.

Lemma writeZZ_ok bits n (s : st cst) : 1 <= bits <= 64 -> in_bits bits n ->
  -9223372036854775808 <= n <= 9223372036854775807 ->
  (m <- makeZigZag n bits ;; writeVarint m) s =
  (Ok tt, mkst (px s) (inp s) (out s ++ varint (zigzag n)) (depth s)).
Proof.
  intros Hb Hn Hr. rewrite (bind_eq _ _ _ _ _ _ (zigzag n) s)
    by (apply makeZigZag_ok; [lia|assumption]).
  apply writeVarint_ok, zz_small, Hr.
Qed.

Lemma readSize_ok n tail x o d : 0 <= n <= 2147483647 ->
  c_readSize (mkst x (varint n ++ tail) o d) = (Ok n, mkst x tail o d).
Proof.
  intros H. unfold c_readSize, bind. rewrite readVarint_ok by (rewrite pow128_10; lia).
  destruct (n <? 0) eqn:E; [lia|]. reflexivity.
Qed.

Lemma in16 z : between (-32768) 32767 z = true -> in_bits 16 z.
Proof. unfold between, in_bits. change (2 ^ (16 - 1)) with 32768. lia. Qed.
Lemma in32 z : between (-2147483648) 2147483647 z = true -> in_bits 32 z.
Proof. unfold between, in_bits. change (2 ^ (32 - 1)) with 2147483648. lia. Qed.
Lemma in64 z : between (-9223372036854775808) 9223372036854775807 z = true ->
  in_bits 64 z.
Proof.
  unfold between, in_bits. change (2 ^ (64 - 1)) with 9223372036854775808. lia.
Qed.

Definition c_limits (cf : cconf) (SL CL : Z) : Prop :=
  SL <= 2147483647 /\ CL <= 2147483647
  /\ lim_ok (c_string_length_limit cf) SL
  /\ lim_ok (c_container_length_limit cf) CL.

Lemma getTType_ok z t (s : st cst) : z mod 16 = sc_type t ->
  getTType z s = (Ok (code t), s).
Proof.
  intros H. unfold getTType. rewrite land15, H, TTYPES_sc. reflexivity.
Qed.

Section CompactLaws.
Variable cf : cconf.
Variables SL CL : Z.
Hypothesis Hlim : c_limits cf SL CL.

Ltac upds := unfold upd, assert_state, get_px, set_px, bind, assert_, ret;
  cbn [px inp out depth state last_fid bool_fid bool_value structs containers
       set_state set_last_fid set_bool_fid set_bool_value set_structs
       set_containers existsb cstate_eqb orb wst rst].

(** Open a representation hypothesis. *)
Ltac openw H c x :=
  let k := fresh "k" in let l := fresh "l" in
  let ss := fresh "ss" in let cs := fresh "cs" in
  destruct c as [k l ss cs];
  destruct x as [x_st x_l x_bf x_bv x_ss x_cs];
  unfold c_wrep in H;
  cbn [cp_kind cp_last cp_structs cp_conts state last_fid structs containers
       bool_value] in H;
  destruct H as (-> & -> & -> & ->).

Ltac openr H c x :=
  let k := fresh "k" in let l := fresh "l" in
  let ss := fresh "ss" in let cs := fresh "cs" in
  let HB := fresh "HB" in
  destruct c as [k l ss cs];
  destruct x as [x_st x_l x_bf x_bv x_ss x_cs];
  unfold c_rrep in H;
  cbn [cp_kind cp_last cp_structs cp_conts state last_fid structs containers
       bool_value] in H;
  destruct H as (-> & -> & -> & -> & -> & HB).

Lemma assert_v k (x : cst) i o d : c_vpos (mkcpos k 0 [] []) -> state x = wst k ->
  assert_state [VALUE_WRITE; CONTAINER_WRITE] (mkst x i o d)
  = (Ok tt, mkst x i o d).
Proof. intros H E. upds. rewrite E. destruct k; cbn in H |- *; tauto. Qed.

Lemma assert_vr k (x : cst) i o d : c_vpos (mkcpos k 0 [] []) -> state x = rst k ->
  assert_state [VALUE_READ; CONTAINER_READ] (mkst x i o d)
  = (Ok tt, mkst x i o d).
Proof. intros H E. upds. rewrite E. destruct k; cbn in H |- *; tauto. Qed.

Lemma writer_ok c (x : cst) i o d bs m : c_vpos c -> c_wrep c x ->
  (forall s, m s = (Ok tt, mkst (px s) (inp s) (out s ++ bs) (depth s))) ->
  writer m (mkst x i o d) = (Ok tt, mkst x i (o ++ bs) d).
Proof.
  intros Hv (Hs & _) Hm. unfold writer.
  rewrite (bind_eq _ _ _ _ _ _ _ _ (assert_v _ _ _ _ _ Hv Hs)). apply Hm.
Qed.

Lemma reader_ok A c (x : cst) i rest o d (m : MC A) r : c_vpos c ->
  c_rrep c x i rest -> m (mkst x i o d) = r -> reader m (mkst x i o d) = r.
Proof.
  intros Hv (_ & Hs & _) Hm. unfold reader.
  rewrite (bind_eq _ _ _ _ _ _ _ _ (assert_vr _ _ _ _ _ Hv Hs)). apply Hm.
Qed.

Lemma writeBinary__ok b (s : st cst) : len_le b SL = true ->
  c_writeBinary_ b s = (Ok tt, mkst (px s) (inp s)
     (out s ++ varint (Z.of_nat (length b)) ++ b) (depth s)).
Proof.
  intros H. unfold len_le in H. destruct Hlim as (H1 & _).
  unfold c_writeBinary_. erewrite bind_eq by (apply writeVarint_ok; rewrite pow128_10; lia).
  unfold twrite. cbn [px inp out depth]. rewrite app_assoc. reflexivity.
Qed.

Lemma readBinary__ok b tail x o d : len_le b SL = true ->
  c_readBinary_ cf (mkst x ((varint (Z.of_nat (length b)) ++ b) ++ tail) o d)
  = (Ok b, mkst x tail o d).
Proof.
  intros H. unfold len_le in H. destruct Hlim as (H1 & _ & H2 & _).
  unfold c_readBinary_. rewrite <- app_assoc.
  erewrite bind_eq by (apply readSize_ok; lia).
  erewrite bind_eq.
  - apply readAll_app.
  - apply check_length_ok; [lia|]. unfold lim_ok in H2.
    destruct (c_string_length_limit cf); [lia|exact I].
Qed.

Lemma cw_base c t v : c_vpos c -> (t = TBool -> c_epos c) -> base_ty t = true ->
  base_ok SL t v = true ->
  Wr c_wrep c c (ce_base c t v) (write_base (compact cf) t v).
Proof.
  intros Hv He Hb Hok x i o d Hx. exists x. split; [|exact Hx].
  destruct t; try discriminate Hb; destruct v; try discriminate Hok;
    cbn [write_base ce_base base_okd] in *; cbn [compact writeBool writeByte
      writeI16 writeI32 writeI64 writeDouble writeString writeBinary writeUuid].
  - specialize (He eq_refl). unfold c_epos in He. openw Hx c x.
    cbn [cp_kind] in *. subst k. unfold c_writeBool. upds.
    destruct b; apply writeByte__ok; unfold CT_TRUE, CT_FALSE; lia.
  - eapply writer_ok; [eassumption..|]. intros s. apply writeByte__ok.
    apply between_spec, Hok.
  - eapply writer_ok; [eassumption..|]. intros s.
    apply writeZZ_ok; [lia|apply in16, Hok|apply between_spec in Hok; lia].
  - eapply writer_ok; [eassumption..|]. intros s.
    apply writeZZ_ok; [lia|apply in32, Hok|apply between_spec in Hok; lia].
  - eapply writer_ok; [eassumption..|]. intros s.
    apply writeZZ_ok; [lia|apply in64, Hok|apply between_spec in Hok; lia].
  - eapply writer_ok; [eassumption..|]. intros s. reflexivity.
  - destruct (utf8_encode s) as [b|] eqn:E; [|discriminate].
    unfold c_writeString. unfold encode_utf8. rewrite E. unfold bind, ret.
    eapply writer_ok; [eassumption..|]. intros. apply writeBinary__ok, Hok.
  - eapply writer_ok; [eassumption..|]. intros. apply writeBinary__ok, Hok.
  - eapply writer_ok; [eassumption..|]. intros. reflexivity.
Qed.

Lemma cr_base c t v : (match v with VBool b => c_bpos c b | _ => c_vpos c end) ->
  base_ty t = true -> base_ok SL t v = true ->
  Rd c_rrep anyT c c (ce_base c t v) (read_base (compact cf) t) v.
Proof.
  intros Hp Hb Hok tail _ x i o d Hx. exists x, tail.
  assert (Hx' : c_rrep c x tail tail).
  { destruct Hx as (_ & Hx). split; [reflexivity|exact Hx]. }
  split; [|exact Hx'].
  destruct t; try discriminate Hb; destruct v; try discriminate Hok;
    cbn [read_base ce_base base_okd] in *; cbn [compact readBool readByte
      readI16 readI32 readI64 readDouble readString readBinary readUuid];
    assert (Hi := proj1 Hx).
  - destruct Hp as [E|E].
    + openr Hx c x. clear Hx' Hi. cbn [cp_kind] in *. subst k. unfold c_readBool. upds.
      destruct b.
      * pose proof (readByte__ok 1 tail (mkcst CONTAINER_READ l x_bf x_bv
          (map (fun p => (rst (fst p), snd p)) ss) (map rst cs)) o d
          ltac:(lia)) as R.
        change (z2b 1) with x01 in R. cbn [app]. rewrite R. reflexivity.
      * pose proof (readByte__ok 2 tail (mkcst CONTAINER_READ l x_bf x_bv
          (map (fun p => (rst (fst p), snd p)) ss) (map rst cs)) o d
          ltac:(lia)) as R.
        change (z2b 2) with x02 in R. cbn [app]. rewrite R. reflexivity.
    + openr Hx c x. clear Hx' Hi. cbn [cp_kind] in *. subst k.
      unfold c_readBool. upds. rewrite HB. destruct b; reflexivity.
  - erewrite bind_eq; [reflexivity|]. eapply reader_ok; [eassumption..|].
    rewrite Hi. apply readByte__ok, between_spec, Hok.
  - erewrite bind_eq; [reflexivity|]. eapply reader_ok; [eassumption..|].
    rewrite Hi. apply readZigZag_ok. apply between_spec in Hok; lia.
  - erewrite bind_eq; [reflexivity|]. eapply reader_ok; [eassumption..|].
    rewrite Hi. apply readZigZag_ok. apply between_spec in Hok; lia.
  - erewrite bind_eq; [reflexivity|]. eapply reader_ok; [eassumption..|].
    rewrite Hi. apply readZigZag_ok. apply between_spec in Hok; lia.
  - erewrite bind_eq; [reflexivity|]. eapply reader_ok; [eassumption..|].
    rewrite Hi. unfold bind.
    rewrite readAll_n by (rewrite le_bytes_length; reflexivity).
    unfold ret. rewrite le_val_le_bytes, Z.mod_small; [reflexivity|].
    change (256 ^ Z.of_nat 8) with 18446744073709551616.
    apply between_spec in Hok. lia.
  - destruct (utf8_encode s) as [b|] eqn:E; [|discriminate].
    erewrite bind_eq; [reflexivity|]. unfold c_readString.
    erewrite bind_eq. 2:{ eapply reader_ok; [eassumption..|]. rewrite Hi.
      apply readBinary__ok, Hok. }
    unfold decode_utf8. rewrite (utf8_decode_encode s b E). reflexivity.
  - erewrite bind_eq; [reflexivity|]. eapply reader_ok; [eassumption..|].
    rewrite Hi. apply readBinary__ok, Hok.
  - erewrite bind_eq; [reflexivity|]. eapply reader_ok; [eassumption..|].
    rewrite Hi. apply readAll_n. lia.
Qed.

Lemma cr_skbin c b : c_vpos c -> base_ok SL TBinary (VBin b) = true ->
  utf8_valid b = true ->
  exists s, Rd c_rrep anyT c c (ce_base c TBinary (VBin b))
               (readString (compact cf)) s.
Proof.
  intros Hp Hv Hu. unfold utf8_valid in Hu.
  destruct (utf8_decode b) as [s|] eqn:E; [|discriminate].
  exists s. intros tail _ x i o d Hx. exists x, tail. split.
  - cbn [base_okd ce_base compact readString] in *. assert (Hi := proj1 Hx).
    unfold c_readString.
    erewrite bind_eq. 2:{ eapply reader_ok; [eassumption..|]. rewrite Hi.
      apply readBinary__ok, Hv. }
    unfold decode_utf8. rewrite E. reflexivity.
  - destruct Hx as (_ & Hx). split; [reflexivity|exact Hx].
Qed.

Lemma writeFieldHeader_ok tc id st0 l bf bv ss cs i o d :
  1 <= tc <= 13 -> between (-32768) 32767 id = true ->
  c_writeFieldHeader tc id (mkst (mkcst st0 l bf bv ss cs) i o d)
  = (Ok tt, mkst (mkcst st0 id bf bv ss cs) i (o ++ sc_field l id tc) d).
Proof.
  intros Ht Hid. unfold c_writeFieldHeader, sc_field.
  erewrite bind_eq by reflexivity. cbn [px last_fid].
  destruct (1 <=? id - l) eqn:E1;
    [destruct (id - l <=? 15) eqn:E2|]; cbn [andb].
  - destruct (0 <? id - l) eqn:E3; [|lia].
    erewrite bind_eq. 2:{ rewrite nib by lia. apply writeUByte_ok. lia. }
    reflexivity.
  - rewrite andb_false_r.
    erewrite bind_eq.
    2:{ erewrite bind_eq by (apply writeByte__ok; lia).
        apply writeZZ_ok; [lia|apply in16, Hid|apply between_spec in Hid; lia]. }
    upds. rewrite <- app_assoc. reflexivity.
  - destruct (0 <? id - l) eqn:E3; [lia|]. cbn [andb].
    erewrite bind_eq.
    2:{ erewrite bind_eq by (apply writeByte__ok; lia).
        apply writeZZ_ok; [lia|apply in16, Hid|apply between_spec in Hid; lia]. }
    upds. rewrite <- app_assoc. reflexivity.
Qed.

Lemma cw_lbeg c t n : c_vpos c -> 0 <= n <= CL ->
  Wr c_wrep c (c_inL c) (sc_list (ctc (code t)) n)
     (c_writeCollectionBegin (code t) n).
Proof.
  intros Hp Hn x i o d Hx. pose proof (sc_type_range t).
  destruct Hlim as (_ & Hc & _).
  unfold c_writeCollectionBegin.
  rewrite (bind_eq _ _ _ _ _ _ _ _ (assert_v _ _ _ _ _ Hp (proj1 Hx))).
  rewrite ctc_code.
  erewrite bind_eq with (a := tt) (s' := mkst x i (o ++ sc_list (sc_type t) n) d).
  2:{ unfold sc_list. destruct (n <=? 14) eqn:E.
      - erewrite bind_eq by apply lookup_ok. rewrite nib by lia.
        apply writeUByte_ok. lia.
      - erewrite bind_eq by apply lookup_ok.
        change 240 with (Z.shiftl 15 4) at 1. rewrite nib by lia.
        erewrite bind_eq by (apply writeUByte_ok; lia).
        rewrite writeVarint_ok by (rewrite pow128_10; lia).
        cbn [px inp out depth]. rewrite <- app_assoc. reflexivity. }
  openw Hx c x. upds. eexists. split; [reflexivity|].
  repeat split.
Qed.

Lemma cw_lend c e : c_vpos c -> c_lpos c e ->
  Wr c_wrep e c [] c_writeCollectionEnd.
Proof.
  intros Hp -> x i o d Hx. rewrite app_nil_r.
  unfold c_inL in Hx.
  destruct x as [x_st x_l x_bf x_bv x_ss x_cs]. unfold c_wrep in Hx.
  cbn [cp_kind cp_last cp_structs cp_conts state last_fid structs containers
       map] in Hx.
  destruct Hx as (-> & -> & -> & ->).
  unfold c_writeCollectionEnd, pop_container. upds.
  eexists. split; [reflexivity|]. repeat split.
Qed.

Lemma cr_lbeg c t n : c_vpos c -> 0 <= n <= CL ->
  Rd c_rrep anyT c (c_inL c) (sc_list (ctc (code t)) n)
     (c_readCollectionBegin cf) (code t, n).
Proof.
  intros Hp Hn tail _ x i o d Hx. pose proof (sc_type_range t).
  destruct Hlim as (_ & Hc & _ & H2).
  unfold c_readCollectionBegin.
  rewrite (bind_eq _ _ _ _ _ _ _ _ (assert_vr _ _ _ _ _ Hp (proj1 (proj2 Hx)))).
  rewrite ctc_code in Hx. unfold sc_list in Hx. rewrite (proj1 Hx).
  assert (Lim : match c_container_length_limit cf with
                | Some l => n <= l | None => True end).
  { unfold lim_ok in H2. destruct (c_container_length_limit cf); [lia|exact I]. }
  exists (mkcst CONTAINER_READ (last_fid x) (bool_fid x) (bool_value x) (structs x)
         (state x :: containers x)), tail.
  split.
  - destruct (n <=? 14) eqn:E.
    + cbn [app]. erewrite bind_eq by (apply readUByte_ok; lia).
      rewrite shiftr_div by lia. change (2 ^ 4) with 16.
      replace ((16 * n + sc_type t) / 16) with n
        by (rewrite Z.add_comm, Z.mul_comm, Z.div_add, Z.div_small by lia; lia).
      erewrite bind_eq.
      2:{ apply getTType_ok. rewrite Z.add_comm, Z.mul_comm, Z.mod_add by lia.
          apply Z.mod_small. lia. }
      destruct (n =? 15) eqn:E15; [lia|].
      erewrite bind_eq by reflexivity.
      erewrite bind_eq by (apply check_length_ok; [lia|exact Lim]).
      upds. reflexivity.
    + cbn [app]. erewrite bind_eq by (apply readUByte_ok; lia).
      rewrite shiftr_div by lia. change (2 ^ 4) with 16.
      replace ((240 + sc_type t) / 16) with 15.
      2:{ symmetry. change 240 with (15 * 16).
          rewrite Z.add_comm, Z.div_add, Z.div_small by lia. lia. }
      erewrite bind_eq.
      2:{ apply getTType_ok. change 240 with (15 * 16).
          rewrite Z.add_comm, Z.mod_add by lia. apply Z.mod_small. lia. }
      change (15 =? 15) with true. cbv iota.
      erewrite bind_eq by (apply readSize_ok; lia).
      erewrite bind_eq by (apply check_length_ok; [lia|exact Lim]).
      upds. reflexivity.
  - openr Hx c x. repeat split.
Qed.

Lemma cr_lend c e : c_vpos c -> c_lpos c e ->
  Rd c_rrep anyT e c [] c_readCollectionEnd tt.
Proof.
  intros Hp -> tail _ x i o d Hx.
  unfold c_inL in Hx. destruct c as [k l ss cs].
  destruct x as [x_st x_l x_bf x_bv x_ss x_cs]. unfold c_rrep in Hx.
  cbn [cp_kind cp_last cp_structs cp_conts state last_fid structs containers
       map] in Hx.
  destruct Hx as (-> & -> & -> & -> & -> & _).
  unfold c_readCollectionEnd, pop_container. upds.
  eexists _, _. split; [reflexivity|].
  unfold c_vpos in Hp. cbn [cp_kind] in Hp. destruct k; try contradiction; repeat split.
Qed.

Lemma cw_mbeg c k t n : c_vpos c -> 0 <= n <= CL ->
  Wr c_wrep c (c_inL c) (sc_map (ctc (code k)) (ctc (code t)) n)
     (c_writeMapBegin (code k) (code t) n).
Proof.
  intros Hp Hn x i o d Hx. pose proof (sc_type_range t). pose proof (sc_type_range k).
  destruct Hlim as (_ & Hc & _).
  unfold c_writeMapBegin.
  rewrite (bind_eq _ _ _ _ _ _ _ _ (assert_v _ _ _ _ _ Hp (proj1 Hx))).
  rewrite !ctc_code.
  erewrite bind_eq with (a := tt)
    (s' := mkst x i (o ++ sc_map (sc_type k) (sc_type t) n) d).
  2:{ unfold sc_map. destruct (n =? 0) eqn:E.
      - apply (writeByte__ok 0). lia.
      - erewrite bind_eq by (apply writeVarint_ok; rewrite pow128_10; lia).
        erewrite bind_eq by apply lookup_ok.
        erewrite bind_eq by apply lookup_ok. rewrite nib by lia.
        rewrite writeUByte_ok by lia. cbn [px inp out depth].
        rewrite <- app_assoc. reflexivity. }
  openw Hx c x. upds. eexists. split; [reflexivity|].
  repeat split.
Qed.

Lemma cr_mbeg c k t n : c_vpos c -> 0 <= n <= CL ->
  Rd c_rrep anyT c (c_inL c) (sc_map (ctc (code k)) (ctc (code t)) n)
     (c_readMapBegin cf) (c_mret (code k) (code t) n).
Proof.
  intros Hp Hn tail _ x i o d Hx. pose proof (sc_type_range t).
  pose proof (sc_type_range k).
  destruct Hlim as (_ & Hc & _ & H2).
  unfold c_readMapBegin.
  rewrite (bind_eq _ _ _ _ _ _ _ _ (assert_vr _ _ _ _ _ Hp (proj1 (proj2 Hx)))).
  rewrite !ctc_code in Hx. unfold sc_map in Hx. rewrite (proj1 Hx).
  assert (Lim : match c_container_length_limit cf with
                | Some l => n <= l | None => True end).
  { unfold lim_ok in H2. destruct (c_container_length_limit cf); [lia|exact I]. }
  exists (mkcst CONTAINER_READ (last_fid x) (bool_fid x) (bool_value x) (structs x)
         (state x :: containers x)), tail.
  unfold c_mret.
  split.
  - destruct (n =? 0) eqn:E.
    + assert (n = 0) by lia. subst n.
      change ([x00] ++ tail) with (varint 0 ++ tail).
      erewrite bind_eq by (apply readSize_ok; lia).
      erewrite bind_eq by (apply check_length_ok; [lia|exact Lim]).
      reflexivity.
    + rewrite <- app_assoc. cbn [app].
      erewrite bind_eq by (apply readSize_ok; lia).
      erewrite bind_eq by (apply check_length_ok; [lia|exact Lim]).
      destruct (n >? 0) eqn:G; [|lia].
      erewrite bind_eq by (apply readUByte_ok; lia).
      erewrite bind_eq.
      2:{ apply getTType_ok. rewrite Z.add_comm, Z.mul_comm, Z.mod_add by lia.
          apply Z.mod_small. lia. }
      erewrite bind_eq.
      2:{ apply getTType_ok. rewrite shiftr_div by lia. change (2 ^ 4) with 16.
          rewrite Z.add_comm, Z.mul_comm, Z.div_add, Z.div_small by lia.
          apply Z.mod_small. lia. }
      upds. reflexivity.
  - openr Hx c x. repeat split.
Qed.

Lemma cr_fbeg c f id t ob : c_fpos c f -> between (-32768) 32767 id = true ->
  (t = TBool <-> ob <> None) ->
  Rd c_rrep anyT f (c_inF f id ob) (ce_fbeg f id (code t) ob) c_readFieldBegin
     (code t, id).
Proof.
  intros [l ->] Hid Hob tail _ x i o d Hx.
  unfold ce_fbeg in Hx. rewrite ctc_code in Hx.
  set (tc := match ob with Some true => 1 | Some false => 2 | None => sc_type t end) in *.
  assert (Htc : 1 <= tc <= 13).
  { unfold tc. pose proof (sc_type_range t). destruct ob as [[]|]; lia. }
  assert (Htt : TTYPES tc = Some (code t)).
  { unfold tc. destruct ob as [[]|].
    - destruct Hob as [_ Hob]. rewrite Hob by discriminate. reflexivity.
    - destruct Hob as [_ Hob]. rewrite Hob by discriminate. reflexivity.
    - apply TTYPES_sc. }
  destruct x as [x_st x_l x_bf x_bv x_ss x_cs]. unfold c_rrep in Hx.
  unfold c_aft, c_inS in Hx.
  cbn [cp_kind cp_last cp_structs cp_conts state last_fid structs containers
       map] in Hx.
  destruct Hx as (-> & -> & -> & -> & -> & _).
  assert (Key : exists dd rest, sc_field l id tc ++ tail = z2b (16 * dd + tc) :: rest
     /\ 0 <= dd <= 15 /\
     forall x o d, last_fid x = l ->
     (if dd =? 0 then c_readZigZag else x <- get_px ;; ret (last_fid x + dd))
       (mkst x rest o d) = (Ok id, mkst x tail o d)).
  { unfold sc_field. destruct (1 <=? id - l) eqn:E1;
    [destruct (id - l <=? 15) eqn:E2|]; cbn [andb].
    - exists (id - l), tail. split; [reflexivity|]. split; [lia|].
      intros x o' d' Hl. destruct (id - l =? 0) eqn:E3; [lia|].
      unfold get_px, bind, ret. cbn [px]. rewrite Hl. do 2 f_equal. lia.
    - exists 0, (varint (zigzag id) ++ tail).
      split; [reflexivity|]. split; [lia|]. intros x o' d' _.
      apply readZigZag_ok. apply between_spec in Hid. lia.
    - exists 0, (varint (zigzag id) ++ tail).
      split; [reflexivity|]. split; [lia|]. intros x o' d' _.
      apply readZigZag_ok. apply between_spec in Hid. lia. }
  destruct Key as (dd & rest & -> & Hdd & Hrd).
  unfold c_readFieldBegin.
  erewrite bind_eq by (upds; reflexivity).
  erewrite bind_eq by (apply readUByte_ok; lia).
  rewrite land15. replace ((16 * dd + tc) mod 16) with tc.
  2:{ rewrite Z.add_comm, Z.mul_comm, Z.mod_add by lia. symmetry.
      apply Z.mod_small. lia. }
  destruct (tc =? T_STOP) eqn:ES; [unfold T_STOP in ES; lia|].
  rewrite shiftr_div by lia. change (2 ^ 4) with 16.
  replace ((16 * dd + tc) / 16) with dd
    by (rewrite Z.add_comm, Z.mul_comm, Z.div_add, Z.div_small by lia; lia).
  erewrite bind_eq by (apply Hrd; reflexivity).
  erewrite bind_eq by (upds; reflexivity).
  assert (GT : forall s : st cst, getTType tc s = (Ok (code t), s)).
  { intros s. unfold getTType. rewrite land15, Z.mod_small by lia. rewrite Htt.
    reflexivity. }
  destruct ob as [[]|].
  - change (tc =? CT_TRUE) with true. cbv iota. eexists _, _. split.
    + erewrite bind_eq by (upds; reflexivity).
      erewrite bind_eq by apply GT. reflexivity.
    + repeat split.
  - change (tc =? CT_TRUE) with false. change (tc =? CT_FALSE) with true.
    cbv iota. eexists _, _. split.
    + erewrite bind_eq by (upds; reflexivity).
      erewrite bind_eq by apply GT. reflexivity.
    + repeat split.
  - assert (Hne : t <> TBool) by (intros ->; destruct Hob as [H _]; apply H; reflexivity).
    replace (tc =? CT_TRUE) with false by (destruct t; try reflexivity; congruence).
    replace (tc =? CT_FALSE) with false by (destruct t; reflexivity).
    eexists _, _. split.
    + erewrite bind_eq by (upds; reflexivity).
      erewrite bind_eq by apply GT. reflexivity.
    + repeat split.
Qed.

Lemma sc_field_pos l id tc : (1 <= length (sc_field l id tc))%nat.
Proof. unfold sc_field. destruct (_ && _); cbn [length]; lia. Qed.

Lemma sc_list_pos t n : (1 <= length (sc_list t n))%nat.
Proof. unfold sc_list. destruct (_ <=? _); cbn [length]; lia. Qed.

Lemma sc_map_pos k t n : (1 <= length (sc_map k t n))%nat.
Proof.
  unfold sc_map. destruct (_ =? _); cbn [length]; [lia|].
  rewrite app_length. pose proof (varint_pos n). lia.
Qed.

Definition compact_laws : laws (compact cf) SL CL.
Proof.
  unshelve refine (mklaws cst (compact cf) SL CL cpos
    c_wrep c_rrep (fun _ => True) utf8_valid (fun _ => true) id16
    (fun c => c) c_inS c_inF c_aft (fun c => c) c_inL c_inL
    c_spos c_vpos c_epos c_bpos c_fpos c_lpos c_lpos
    ce_base (fun _ => []) ce_fbeg [] [x00] []
    (fun _ t n => sc_list (ctc t) n) []
    (fun _ k t n => sc_map (ctc k) (ctc t) n) []
    c_mret
    _ _ _ _ _ _ _ _ _ _ _ _ _ _ _
    _ _ _ _ _ _ _ _ _ _ _ _
    _ _ _ _ _ _ _ _ _ _ _ _ _
    _ _
    _ _ _ _ _ _ _
    _ _ _ _ _); try (intros; exact I).
  - intros c. unfold c_vpos, c_spos. destruct (cp_kind c); tauto.
  - intros c H. unfold c_vpos. rewrite H. exact I.
  - intros c b H. left. exact H.
  - intros c _. exists 0. reflexivity.
  - intros c f id [l ->]. exists id. reflexivity.
  - intros c f id b [l ->]. right. reflexivity.
  - intros c _. reflexivity.
  - intros c e H. exact H.
  - intros c e ->. reflexivity.
  - intros c _. exists (c_inL c). split; reflexivity.
  - intros c _. reflexivity.
  - intros c e H. exact H.
  - intros c e ->. reflexivity.
  - intros c e ->. reflexivity.
  - apply cw_base.
  - intros c Hp x i o d Hx. rewrite app_nil_r.
    cbn [compact writeStructBegin]. unfold c_writeStructBegin.
    openw Hx c x. unfold c_spos in Hp. cbn [cp_kind] in Hp.
    erewrite bind_eq. 2:{ upds. destruct k; try contradiction; reflexivity. }
    upds. eexists. split; [reflexivity|]. repeat split.
  - intros c f id t [l ->] Hid Ht x i o d Hx.
    cbn [compact writeFieldBegin]. unfold c_writeFieldBegin.
    replace (code t =? T_BOOL) with false by (destruct t; try reflexivity; congruence).
    destruct x as [x_st x_l x_bf x_bv x_ss x_cs]. unfold c_wrep, c_aft, c_inS in Hx.
    cbn [cp_kind cp_last cp_structs cp_conts state last_fid structs containers
         map] in Hx.
    destruct Hx as (-> & -> & -> & ->).
    erewrite bind_eq by (upds; reflexivity).
    erewrite bind_eq by (upds; reflexivity).
    erewrite bind_eq by apply lookup_ok.
    unfold set_state.
    cbn [px inp out depth state last_fid bool_fid bool_value structs
         containers].
    rewrite writeFieldHeader_ok by (assumption || apply sc_type_range).
    unfold ce_fbeg. rewrite ctc_code. eexists. split; [reflexivity|]. repeat split.
  - intros c f id b [l ->] Hid x i o d Hx.
    cbn [compact writeFieldBegin writeBool]. unfold c_writeFieldBegin.
    change (T_BOOL =? T_BOOL) with true. cbv iota.
    destruct x as [x_st x_l x_bf x_bv x_ss x_cs]. unfold c_wrep, c_aft, c_inS in Hx.
    cbn [cp_kind cp_last cp_structs cp_conts state last_fid structs containers
         map] in Hx.
    destruct Hx as (-> & -> & -> & ->).
    erewrite bind_eq by (upds; reflexivity).
    unfold c_writeBool.
    erewrite bind_eq by reflexivity.
    unfold set_state, set_bool_fid.
    cbn [px inp out depth state last_fid bool_fid bool_value structs
         containers].
    rewrite writeFieldHeader_ok; [|destruct b; unfold CT_TRUE, CT_FALSE; lia|assumption].
    eexists. split.
    + cbn [ce_base c_inF cp_kind]. rewrite app_nil_r. unfold ce_fbeg.
      destruct b; reflexivity.
    + repeat split.
  - intros c f id ob [l ->] x i o d Hx. rewrite app_nil_r.
    destruct x as [x_st x_l x_bf x_bv x_ss x_cs].
    unfold c_wrep, c_inF, c_aft, c_inS in Hx.
    cbn [cp_kind cp_last cp_structs cp_conts state last_fid structs containers
         map] in Hx.
    destruct Hx as (-> & -> & -> & ->).
    cbn [compact writeFieldEnd]. unfold c_writeFieldEnd.
    destruct ob; upds; eexists; (split; [reflexivity|]); repeat split.
  - intros c f Hp [l ->] x i o d Hx. rewrite app_nil_r.
    destruct x as [x_st x_l x_bf x_bv x_ss x_cs].
    unfold c_wrep, c_aft, c_inS in Hx.
    cbn [cp_kind cp_last cp_structs cp_conts state last_fid structs containers
         map fst snd] in Hx.
    destruct Hx as (-> & -> & -> & ->).
    cbn [compact writeFieldStop writeStructEnd].
    unfold c_writeFieldStop, c_writeStructEnd.
    erewrite bind_eq by (apply writeByte__ok; lia).
    unfold pop_struct. upds. eexists. split; [reflexivity|]. repeat split.
  - apply cw_lbeg.
  - apply cw_lend.
  - apply cw_lbeg.
  - apply cw_lend.
  - apply cw_mbeg.
  - apply cw_lend.
  - apply cr_base.
  - apply cr_skbin.
  - intros c Hp tail _ x i o d Hx.
    cbn [compact readStructBegin]. unfold c_readStructBegin.
    openr Hx c x. unfold c_spos in Hp. cbn [cp_kind] in Hp.
    erewrite bind_eq. 2:{ upds. destruct k; try contradiction; reflexivity. }
    upds. eexists _, _. split; [reflexivity|]. repeat split.
  - apply cr_fbeg.
  - intros c f id ob [l ->] tail _ x i o d Hx.
    destruct x as [x_st x_l x_bf x_bv x_ss x_cs].
    unfold c_rrep, c_inF, c_aft, c_inS in Hx.
    cbn [cp_kind cp_last cp_structs cp_conts state last_fid structs containers
         map] in Hx.
    destruct Hx as (-> & -> & -> & -> & -> & _).
    cbn [compact readFieldEnd]. unfold c_readFieldEnd.
    destruct ob; upds; eexists _, _; (split; [reflexivity|]); repeat split.
  - intros c f [l ->] tail. exists 0. intros tl -> x i o d Hx.
    destruct x as [x_st x_l x_bf x_bv x_ss x_cs].
    unfold c_rrep, c_inF, c_aft, c_inS in Hx.
    cbn [cp_kind cp_last cp_structs cp_conts state last_fid structs containers
         map] in Hx.
    destruct Hx as (-> & -> & -> & -> & -> & _).
    cbn [compact readFieldBegin]. unfold c_readFieldBegin.
    erewrite bind_eq by (upds; reflexivity).
    cbn [app]. change x00 with (z2b 0).
    erewrite bind_eq by (apply readUByte_ok; lia).
    change (Z.land 0 15 =? T_STOP) with true. cbv iota.
    eexists _, _. split; [reflexivity|]. repeat split.
  - intros c f Hp [l ->] tail _ x i o d Hx.
    destruct c as [k l0 ss cs].
    destruct x as [x_st x_l x_bf x_bv x_ss x_cs].
    unfold c_rrep, c_inF, c_aft, c_inS in Hx.
    cbn [cp_kind cp_last cp_structs cp_conts state last_fid structs containers
         map fst snd] in Hx.
    destruct Hx as (-> & -> & -> & -> & -> & _).
    cbn [compact readStructEnd]. unfold c_readStructEnd, pop_struct. upds.
    eexists _, _. split; [reflexivity|].
    unfold c_spos in Hp. cbn [cp_kind] in Hp.
    destruct k; try contradiction; repeat split.
  - apply cr_lbeg.
  - apply cr_lend.
  - apply cr_lbeg.
  - apply cr_lend.
  - apply cr_mbeg.
  - apply cr_lend.
  - intros k t n Hn. unfold c_mret. destruct (n =? 0) eqn:E; [lia|]. reflexivity.
  - reflexivity.
  - intros c t v He Hb Hok. unfold c_epos in He.
    destruct t; try discriminate Hb; destruct v; try discriminate Hok;
      cbn [ce_base base_okd] in *; rewrite ?app_length, ?le_bytes_length;
      try (pose proof (varint_pos (zigzag z))); cbn [length]; try lia.
    + rewrite He. destruct b; cbn [length]; lia.
    + destruct (utf8_encode s) as [b|]; [|discriminate]. rewrite app_length.
      pose proof (varint_pos (Z.of_nat (length b))). lia.
    + pose proof (varint_pos (Z.of_nat (length b))). lia.
  - intros. apply sc_field_pos.
  - cbn. lia.
  - intros. apply sc_list_pos.
  - intros. apply sc_map_pos.
Defined.

End CompactLaws.
