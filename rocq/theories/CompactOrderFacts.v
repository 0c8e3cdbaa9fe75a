(** Proofs about CompactOrder.v. *)
From Coq Require Import ZArith List Bool.
From Coq Require Import Init.Byte.
From Verif Require Import Base Bytes Utf8 Proto Compact CompactOrder.
Import ListNotations.
Open Scope Z_scope.

Lemma bind_ok : forall {S A B} (m : SM S A) (k : A -> SM S B) s b s',
  bind m k s = (Ok b, s') -> exists a s1, m s = (Ok a, s1) /\ k a s1 = (Ok b, s').
Proof.
  intros S A B m k s b s' H. unfold bind in H.
  destruct (m s) as [[a|e|] s1]; try discriminate. exists a, s1. auto.
Qed.

(** Neither the bytes read nor those written touch the protocol's attributes. *)
Definition keeps {X A} (m : M X A) : Prop :=
  forall s a s', m s = (Ok a, s') -> px s' = px s.

Lemma keeps_ret : forall X A (a : A), @keeps X A (ret a).
Proof. intros X A a s b s' H. inversion H. reflexivity. Qed.
Lemma keeps_raise : forall X A e, @keeps X A (raise e).
Proof. intros X A e s b s' H. inversion H. Qed.
Lemma keeps_diverge : forall X A, @keeps X A diverge.
Proof. intros X A s b s' H. inversion H. Qed.
Lemma keeps_bind : forall X A B (m : M X A) (k : A -> M X B),
  keeps m -> (forall a, keeps (k a)) -> keeps (bind m k).
Proof.
  intros X A B m k Hm Hk s b s' H. apply bind_ok in H as (a & s1 & E1 & E2).
  rewrite (Hk a _ _ _ E2). eapply Hm; eassumption.
Qed.
Lemma keeps_get : forall X, @keeps X X get_px.
Proof. intros X s a s' H. inversion H. reflexivity. Qed.
Lemma keeps_readAll : forall X n, @keeps X _ (readAll n).
Proof.
  intros X n s a s' H. unfold readAll in H.
  destruct (n <=? 0); [inversion H; reflexivity|].
  destruct (n <=? _); inversion H. reflexivity.
Qed.
Lemma keeps_twrite : forall X b, @keeps X _ (twrite b).
Proof. intros X b s a s' H. inversion H. reflexivity. Qed.
Lemma keeps_assert : forall X b, @keeps X _ (assert_ b).
Proof. intros X b. unfold assert_. destruct b; [apply keeps_ret|apply keeps_raise]. Qed.

Create HintDb kp.
#[export] Hint Resolve keeps_ret keeps_raise keeps_diverge keeps_bind keeps_get keeps_readAll
  keeps_twrite keeps_assert : kp.
Ltac kp := intros; cbv zeta;
  repeat match goal with
  | |- keeps (bind _ _) => apply keeps_bind; [|intro]
  | |- keeps (if ?b then _ else _) => destruct b
  | |- keeps (match ?b with _ => _ end) => destruct b
  | |- _ => solve [auto with kp]
  end.

Lemma keeps_limits : forall X i b, @keeps X _ (checkIntegerLimits i b).
Proof. intros. unfold checkIntegerLimits. kp. Qed.
#[export] Hint Resolve keeps_limits : kp.
Lemma keeps_zig : forall X i b, @keeps X _ (makeZigZag i b).
Proof. intros. unfold makeZigZag. kp. Qed.
Lemma keeps_wvarint : forall X i, @keeps X _ (writeVarint i).
Proof. intros. unfold writeVarint. kp. Qed.
Lemma keeps_rvarint_loop : forall X k r s, @keeps X _ (readVarint_loop k r s).
Proof. intros X. induction k; intros; cbn [readVarint_loop]; kp. Qed.
#[export] Hint Resolve keeps_zig keeps_wvarint keeps_rvarint_loop : kp.
Lemma keeps_rvarint : forall X, @keeps X _ readVarint.
Proof. intros. unfold readVarint. kp. Qed.
#[export] Hint Resolve keeps_rvarint : kp.
Lemma keeps_enc : forall X s, @keeps X _ (encode_utf8 s).
Proof. intros. unfold encode_utf8. kp. Qed.
Lemma keeps_dec : forall X s, @keeps X _ (decode_utf8 s).
Proof. intros. unfold decode_utf8. kp. Qed.
Lemma keeps_len : forall X l n, @keeps X _ (check_length l n).
Proof. intros. unfold check_length. kp. Qed.
Lemma keeps_ct : forall t, @keeps cst _ (lookup_ctype t).
Proof. intros. unfold lookup_ctype. kp. Qed.
Lemma keeps_tt : forall t, @keeps cst _ (getTType t).
Proof. intros. unfold getTType. kp. Qed.
Lemma keeps_ps : forall X n z, @keeps X _ (pack_signed n z).
Proof. intros. unfold pack_signed. kp. Qed.
Lemma keeps_pu : forall X n z, @keeps X _ (pack_unsigned n z).
Proof. intros. unfold pack_unsigned. kp. Qed.
#[export] Hint Resolve keeps_ps keeps_pu : kp.
Lemma keeps_wub : forall z, keeps (c_writeUByte z).
Proof. intros. unfold c_writeUByte. kp. Qed.
Lemma keeps_wb : forall z, keeps (c_writeByte_ z).
Proof. intros. unfold c_writeByte_. kp. Qed.
Lemma keeps_rub : keeps c_readUByte.
Proof. unfold c_readUByte. kp. Qed.
Lemma keeps_rb : keeps c_readByte_.
Proof. unfold c_readByte_. kp. Qed.
#[export] Hint Resolve keeps_enc keeps_dec keeps_len keeps_ct keeps_tt keeps_wub keeps_wb
  keeps_rub keeps_rb : kp.
Lemma keeps_wi16 : forall z, keeps (c_writeI16_ z).
Proof. intros. unfold c_writeI16_. kp. Qed.
Lemma keeps_wbin : forall z, keeps (c_writeBinary_ z).
Proof. intros. unfold c_writeBinary_. kp. Qed.
Lemma keeps_rzz : keeps c_readZigZag.
Proof. unfold c_readZigZag. kp. Qed.
Lemma keeps_rsz : keeps c_readSize.
Proof. unfold c_readSize. kp. Qed.
#[export] Hint Resolve keeps_wi16 keeps_wbin keeps_rzz keeps_rsz : kp.
Lemma keeps_rbin : forall cf, keeps (c_readBinary_ cf).
Proof. intros. unfold c_readBinary_. kp. Qed.
#[export] Hint Resolve keeps_rbin : kp.

(** * What a call that returns does to the state and the two stacks *)

Definition moved (x x' : cst) (s : cstate) : Prop :=
  state x' = s /\ structs x' = structs x /\ containers x' = containers x.

Definition effect (c : call) (x x' : cst) : Prop :=
  match opens c, closes c with
  | Some SW, _ => state x' = FIELD_WRITE /\ structs x' = (state x, last_fid x) :: structs x
      /\ containers x' = containers x
  | Some SR, _ => state x' = FIELD_READ /\ structs x' = (state x, last_fid x) :: structs x
      /\ containers x' = containers x
  | Some CW, _ => state x' = CONTAINER_WRITE /\ structs x' = structs x
      /\ containers x' = state x :: containers x
  | Some CR, _ => state x' = CONTAINER_READ /\ structs x' = structs x
      /\ containers x' = state x :: containers x
  | None, Some (SW | SR) => containers x' = containers x
      /\ exists f, structs x = (state x', f) :: structs x'
  | None, Some (CW | CR) => structs x' = structs x
      /\ containers x = state x' :: containers x'
  | None, None =>
      match c with
      | WMessageBegin _ _ _ => moved x x' VALUE_WRITE
      | WMessageEnd => moved x x' CLEAR
      | WFieldBegin _ _ => moved x x' VALUE_WRITE \/ moved x x' BOOL_WRITE
      | WFieldEnd => moved x x' FIELD_WRITE
      | RFieldBegin => moved x x' VALUE_READ \/ moved x x' BOOL_READ \/ moved x x' FIELD_READ
      | RFieldEnd => moved x x' FIELD_READ
      | RMessageEnd => moved x x' CLEAR /\ structs x = []
      | _ => moved x x' (state x)
      end
  end.

Lemma keeps_moved : forall (m : MC unit) s a s', keeps m -> m s = (Ok a, s') ->
  moved (px s) (px s') (state (px s)).
Proof. intros m s a s' K H. rewrite (K _ _ _ H). split; auto. Qed.

Lemma state_ok : forall l s a s', assert_state l s = (Ok a, s') -> s' = s /\ In (state (px s)) l.
Proof.
  intros l s a s' H. unfold assert_state, bind, get_px, assert_ in H.
  destruct (existsb _ l) eqn:E; inversion H; subst. split; [reflexivity|].
  apply existsb_exists in E as (y & Hy & E).
  destruct (state (px s')), y; try discriminate; exact Hy.
Qed.

Lemma upd_ok : forall f s a s', upd f s = (Ok a, s') -> px s' = f (px s).
Proof. intros f s a s' H. inversion H. reflexivity. Qed.

Ltac go :=
  repeat match goal with
  | H : bind ?m ?k ?s = (Ok _, _) |- _ =>
      let a := fresh "a" in let s1 := fresh "s" in let E := fresh "E" in
      apply bind_ok in H as (a & s1 & E & H)
  | H : assert_state _ _ = (Ok _, _) |- _ =>
      let E := fresh "E" in apply state_ok in H as [-> E]
  | H : upd _ _ = (Ok _, _) |- _ => apply upd_ok in H
  | H : get_px _ = (Ok _, _) |- _ => unfold get_px in H; inversion H; clear H; subst
  | H : set_px _ _ = (Ok _, _) |- _ => unfold set_px in H; inversion H; clear H; subst; cbn [px]
  | H : ret _ _ = (Ok _, _) |- _ => unfold ret in H; inversion H; clear H; subst
  | H : raise _ _ = (Ok _, _) |- _ => discriminate H
  | H : ?m ?s = (Ok _, ?s') |- _ =>
      let K := fresh "K" in
      let G := fresh "G" in
      assert (G : keeps m) by kp; pose proof (G _ _ _ H) as K; clear G H
  | H : (if ?b then _ else _) _ = (Ok _, _) |- _ => destruct b
  | H : (match ?b with _ => _ end) _ = (Ok _, _) |- _ => destruct b eqn:?
  end.

Ltac fin :=
  repeat match goal with K : px ?s = _ |- context [px ?s] => rewrite K; clear K end;
  unfold moved, set_state, set_last_fid, set_structs, set_containers, set_bool_fid,
    set_bool_value; cbn [state structs containers last_fid]; auto 8.

Lemma perform_effect : forall cf c s a s', perform (compact cf) c s = (Ok a, s') ->
  In (state (px s)) (allowed c) /\ effect c (px s) (px s').
Proof.
  intros cf c s a s' H.
  destruct c; cbn [perform compact writeMessageBegin writeMessageEnd writeStructBegin
    writeStructEnd writeFieldBegin writeFieldEnd writeFieldStop writeMapBegin writeMapEnd
    writeListBegin writeListEnd writeSetBegin writeSetEnd writeBool writeByte writeI16 writeI32
    writeI64 writeDouble writeString writeBinary writeUuid readMessageBegin readMessageEnd
    readStructBegin readStructEnd readFieldBegin readFieldEnd readMapBegin readMapEnd
    readListBegin readListEnd readSetBegin readSetEnd readBool readByte readI16 readI32 readI64
    readDouble readString readBinary readUuid] in H; cbn [allowed effect opens closes];
  unfold effect; cbn [opens closes];
  unfold void, writer, reader, c_writeMessageBegin, c_writeMessageEnd, c_writeStructBegin,
    c_writeStructEnd, c_writeFieldBegin, c_writeFieldEnd, c_writeFieldStop, c_writeMapBegin,
    c_writeCollectionBegin, c_writeCollectionEnd, c_writeByte, c_writeI16, c_writeI32,
    c_writeI64, c_writeDouble, c_writeString, c_writeBinary, c_writeUuid, c_readMessageBegin,
    c_readMessageEnd, c_readStructBegin, c_readStructEnd, c_readFieldBegin, c_readFieldEnd,
    c_readMapBegin, c_readCollectionBegin, c_readCollectionEnd, c_readByte, c_readI16,
    c_readI32, c_readI64, c_writeBool, c_readBool, c_writeFieldHeader,
    pop_struct, pop_container, c_readDouble, c_readString, c_readBinary, c_readUuid, writer, reader
    in H; cbv zeta in H.
  all: try solve [go; fin].
  - go. split; [eassumption|]. cbn. eauto.
  - assert (K : px s' = px s) by (pose proof (keeps_wb 0 _ _ _ H); assumption).
    split; [destruct (state (px s)); cbn; auto 10|]. rewrite K. repeat split.
  - go; rewrite ?Heqc; cbn; (split; [auto|]); fin.
  - go. rewrite K0 in *. split; [eassumption|]. fin.
  - unfold moved. apply bind_ok in H as (a1 & s1 & E & H). apply state_ok in E as [-> E].
    unfold bind, get_px, assert_ in H. destruct (structs (px s)) eqn:Es; inversion H; subst.
    split; [exact E|]. destruct E as [E|[]]. auto.
  - go. split; [eassumption|]. cbn. eauto.
  - go; (split; [assumption|]); fin.
    right; right. destruct E2 as [E2|[]]. auto.
  - split; [unfold bind at 1 2, get_px in H; destruct (state (px s)); try discriminate H; cbn; auto|].
    go; fin.
Qed.

(** * Nesting *)

(** The state and the two stacks agree with the brackets left open. *)
Fixpoint fits (k : list bracket) (s : cstate) (ss : list (cstate * Z)) (cs : list cstate)
  : Prop :=
  match k with
  | [] => ss = [] /\ cs = [] /\ In s [CLEAR; VALUE_WRITE; FIELD_WRITE; BOOL_WRITE]
  | SW :: k' => In s [FIELD_WRITE; VALUE_WRITE; BOOL_WRITE; CLEAR]
      /\ match ss with (s', _) :: ss' => fits k' s' ss' cs | [] => False end
  | SR :: k' => In s [FIELD_READ; VALUE_READ; BOOL_READ]
      /\ match ss with (s', _) :: ss' => fits k' s' ss' cs | [] => False end
  | CW :: k' => s = CONTAINER_WRITE
      /\ match cs with s' :: cs' => fits k' s' ss cs' | [] => False end
  | CR :: k' => s = CONTAINER_READ
      /\ match cs with s' :: cs' => fits k' s' ss cs' | [] => False end
  end.

Definition after (k : list bracket) (c : call) : list bracket :=
  match opens c, closes c with
  | Some b, _ => b :: k
  | None, Some _ => tl k
  | None, None => k
  end.

Lemma step_fits : forall c k x x', In (state x) (allowed c) -> effect c x x' ->
  fits k (state x) (structs x) (containers x) ->
  match opens c, closes c with None, Some b => exists k', k = b :: k' | _, _ => True end
  /\ place k c = true /\ fits (after k c) (state x') (structs x') (containers x').
Proof.
  intros c k x x' Ha He Hf.
  destruct x as [s lf bf bv ss cs], x' as [s' lf' bf' bv' ss' cs'].
  cbn [state structs containers] in *.
  destruct k as [|[| | |] k]; cbn [fits] in Hf; destruct Hf as [H1 H2]; try subst ss; try subst s;
    repeat match goal with
    | H : match ?l with _ => _ end |- _ => destruct l as [|? ?]; [contradiction|]
    | p : (_ * _)%type |- _ => destruct p
    | H : _ /\ _ |- _ => destruct H
    end;
    destruct c; cbn in Ha; unfold effect, moved, after in *; cbn in *;
      repeat match goal with
      | H : _ /\ _ |- _ => destruct H
      | H : _ \/ _ |- _ => destruct H
      | H : exists _, _ |- _ => destruct H
      | H : False |- _ => contradiction
      | H : _ :: _ = _ :: _ |- _ => injection H; clear H; intros
      end; subst; try discriminate; try contradiction; eauto 20.
Qed.

Lemma run_nest : forall cf cs k s a s', run (compact cf) cs s = (Ok a, s') ->
  fits k (state (px s)) (structs (px s)) (containers (px s)) ->
  places k cs = true
  /\ exists k', nest k cs = Some k'
       /\ fits k' (state (px s')) (structs (px s')) (containers (px s')).
Proof.
  intros cf. induction cs as [|c r IH]; intros k s a s' H Hf.
  - inversion H; subst. cbn. eauto.
  - cbn [run] in H. apply bind_ok in H as (a1 & s1 & E & H).
    apply perform_effect in E as [Ea Ee].
    destruct (step_fits _ _ _ _ Ea Ee Hf) as (Hm & Hp & Hf').
    destruct (IH _ _ _ _ H Hf') as (Hps & k' & Hn & Hk).
    unfold after in *. cbn [places nest]. rewrite Hp.
    destruct (opens c); [split; [exact Hps|eauto]|].
    destruct (closes c) as [b|]; [|split; [exact Hps|eauto]].
    destruct Hm as [k1 ->]. cbn [tl] in *. split; [exact Hps|].
    replace (bracket_eqb b b) with true by (destruct b; reflexivity). eauto.
Qed.

(** * A call in a state it is not meant for *)

Lemma wrong_state : forall cf c s, ~ In (state (px s)) (allowed c) ->
  perform (compact cf) c s = (Raise EAssertion, s)
  \/ (exists t, c = WString t /\ utf8_encode t = None
        /\ perform (compact cf) c s = (Raise EUnicodeEncode, s)).
Proof.
  intros cf c s Ha.
  assert (A : forall l, ~ In (state (px s)) l -> assert_state l s = (Raise EAssertion, s)).
  { intros l Hl. unfold assert_state, bind, get_px, assert_.
    destruct (existsb _ l) eqn:E; [|reflexivity]. exfalso. apply Hl.
    apply existsb_exists in E as (y & Hy & E).
    destruct (state (px s)), y; try discriminate; exact Hy. }
  destruct c.
  20: { cbn [perform compact writeString].
        unfold c_writeString, encode_utf8, bind. destruct (utf8_encode s0) eqn:Eu.
        - left. unfold ret, c_writeBinary, writer, bind. rewrite A by exact Ha. reflexivity.
        - right. exists s0. auto. }
  all: left; cbn [allowed] in Ha.
  7: { exfalso. apply Ha. destruct (state (px s)); cbn; auto 10. }
  all: try solve [
    unfold perform, void, compact; cbn [writeMessageBegin writeMessageEnd writeStructBegin
    writeStructEnd writeFieldBegin writeFieldEnd writeFieldStop writeMapBegin writeMapEnd
    writeListBegin writeListEnd writeSetBegin writeSetEnd writeBool writeByte writeI16 writeI32
    writeI64 writeDouble writeString writeBinary writeUuid readMessageBegin readMessageEnd
    readStructBegin readStructEnd readFieldBegin readFieldEnd readMapBegin readMapEnd
    readListBegin readListEnd readSetBegin readSetEnd readBool readByte readI16 readI32 readI64
    readDouble readString readBinary readUuid];
    unfold c_writeMessageBegin, c_writeMessageEnd, c_writeStructBegin,
    c_writeStructEnd, c_writeFieldBegin, c_writeFieldEnd, c_writeFieldStop, c_writeMapBegin,
    c_writeCollectionBegin, c_writeCollectionEnd, c_writeByte, c_writeI16, c_writeI32,
    c_writeI64, c_writeDouble, c_writeString, c_writeBinary, c_writeUuid, c_readMessageBegin,
    c_readMessageEnd, c_readStructBegin, c_readStructEnd, c_readFieldBegin, c_readFieldEnd,
    c_readMapBegin, c_readCollectionBegin, c_readCollectionEnd, c_readByte, c_readI16,
    c_readI32, c_readI64, c_readDouble, c_readString, c_readBinary, c_readUuid, writer, reader;
    unfold bind; rewrite (A _ Ha); reflexivity].
  all: cbn [perform compact writeBool readBool]; unfold void, c_writeBool, c_readBool, bind, get_px;
    destruct (state (px s)); try reflexivity; exfalso; apply Ha; cbn; auto.
Qed.
