(** What reading and writing can do to the transport and the depth counter,
    whatever the input and the outcome; and reading a longer input. *)
From Coq Require Import ZArith List Bool Lia ZifyBool.
From Coq Require Import Init.Byte.
From Verif Require Import Base Bytes Utf8 Proto Closure Binary Compact.
Import ListNotations.
Open Scope Z_scope.

(** A reader: the output is untouched, bytes are only removed from the front
    of the input, the depth counter is restored. *)
Definition reads {X} (A : Type) (m m' : M X A) : Prop :=
  forall s, out (snd (m s)) = out s /\ depth (snd (m s)) = depth s
    /\ exists pre, inp s = pre ++ inp (snd (m s)).

(** A writer: the input is untouched, bytes are only added at the end of the
    output, the depth counter is restored. *)
Definition writes {X} (A : Type) (m m' : M X A) : Prop :=
  forall s, inp (snd (m s)) = inp s /\ depth (snd (m s)) = depth s
    /\ exists post, out (snd (m s)) = out s ++ post.

(** A successful run does not notice bytes after those it read. *)
Definition stable {X} (A : Type) (m m' : M X A) : Prop :=
  forall x i o d v x' i' o' d' e,
    m (mkst x i o d) = (Ok v, mkst x' i' o' d') ->
    m' (mkst x (i ++ e) o d) = (Ok v, mkst x' (i' ++ e) o' d').

Lemma reads_closed X : rclosed (@reads X).
Proof.
  constructor; unfold reads.
  - intros A a s. repeat split. exists []. reflexivity.
  - intros A e s. repeat split. exists []. reflexivity.
  - intros A _ s. repeat split. exists []. reflexivity.
  - intros A B m m' k k' Hm Hk s. unfold bind. specialize (Hm s).
    destruct (m s) as [[a|e|] s1]; cbn [snd] in *; auto.
    destruct Hm as (H1 & H2 & p1 & H3). destruct (Hk a s1) as (K1 & K2 & p2 & K3).
    repeat split; try congruence. exists (p1 ++ p2). rewrite <- app_assoc. congruence.
  - intros A m m' Hm s. unfold with_depth, increment_recursion_depth, bind, try_finally.
    destruct (_ >? _).
    + cbn. repeat split; try lia. exists []. reflexivity.
    + match goal with |- context [m ?s1] => specialize (Hm s1); destruct (m s1) as [r s2] end.
      cbn in *. destruct Hm as (H1 & H2 & p & H3). repeat split; auto; try lia.
      exists p. assumption.
Qed.

Lemma writes_closed X : rclosed (@writes X).
Proof.
  constructor; unfold writes.
  - intros A a s. repeat split. exists []. symmetry; apply app_nil_r.
  - intros A e s. repeat split. exists []. symmetry; apply app_nil_r.
  - intros A _ s. repeat split. exists []. symmetry; apply app_nil_r.
  - intros A B m m' k k' Hm Hk s. unfold bind. specialize (Hm s).
    destruct (m s) as [[a|e|] s1]; cbn [snd] in *; auto.
    destruct Hm as (H1 & H2 & p1 & H3). destruct (Hk a s1) as (K1 & K2 & p2 & K3).
    repeat split; try congruence. exists (p1 ++ p2). rewrite app_assoc. congruence.
  - intros A m m' Hm s. unfold with_depth, increment_recursion_depth, bind, try_finally.
    destruct (_ >? _).
    + cbn. repeat split; try lia. exists []. symmetry; apply app_nil_r.
    + match goal with |- context [m ?s1] => specialize (Hm s1); destruct (m s1) as [r s2] end.
      cbn in *. destruct Hm as (H1 & H2 & p & H3). repeat split; auto; try lia.
      exists p. assumption.
Qed.

Lemma stable_closed X : rclosed (@stable X).
Proof.
  constructor; unfold stable.
  - intros A a x i o d v x' i' o' d' e H. unfold ret in *. congruence.
  - intros A er x i o d v x' i' o' d' e H. discriminate.
  - intros A m x i o d v x' i' o' d' e H. discriminate.
  - intros A B m m' k k' Hm Hk x i o d v x' i' o' d' e H. unfold bind in *.
    destruct (m (mkst x i o d)) as [[a|er|] [x1 i1 o1 d1]] eqn:E; try discriminate.
    rewrite (Hm _ _ _ _ _ _ _ _ _ e E). apply Hk. exact H.
  - intros A m m' Hm x i o d v x' i' o' d' e H.
    unfold with_depth, increment_recursion_depth, bind, try_finally in *.
    cbn [depth px inp out] in *. destruct (_ >? _); [discriminate|].
    destruct (m (mkst x i o (d + 1))) as [r [x1 i1 o1 d1]] eqn:E.
    unfold decrement_recursion_depth in H. cbn [depth px inp out] in H.
    assert (r = Ok v) by congruence. subst r.
    rewrite (Hm _ _ _ _ _ _ _ _ _ e E). unfold decrement_recursion_depth.
    cbn [depth px inp out]. congruence.
Qed.

(** * The transport operations *)

Lemma readAll_reads X n m : reads _ (@readAll X n) m.
Proof.
  intros s. unfold readAll. destruct (n <=? 0).
  - repeat split. exists []. reflexivity.
  - destruct (n <=? Z.of_nat _); cbn [snd out inp depth]; repeat split.
    + exists (firstn (Z.to_nat n) (inp s)). symmetry; apply firstn_skipn.
    + exists (inp s). symmetry; apply app_nil_r.
Qed.

Lemma readAll_stable X n : stable _ (@readAll X n) (readAll n).
Proof.
  intros x i o d v x' i' o' d' e H. unfold readAll in *. cbn [px inp out depth] in *.
  destruct (n <=? 0) eqn:E0; [congruence|].
  destruct (n <=? Z.of_nat (length i)) eqn:E; [|discriminate].
  rewrite app_length.
  destruct (n <=? Z.of_nat (length i + length e)) eqn:F; [|lia].
  assert (Hl : (Z.to_nat n <= length i)%nat) by lia.
  rewrite firstn_app, skipn_app.
  replace (Z.to_nat n - length i)%nat with O by lia. cbn [firstn skipn].
  rewrite app_nil_r. congruence.
Qed.

Lemma twrite_writes X b m : writes _ (@twrite X b) m.
Proof. intros s. cbn. repeat split. exists b. reflexivity. Qed.

Lemma get_px_reads X m : reads _ (@get_px X) m.
Proof. intros s. repeat split. exists []. reflexivity. Qed.
Lemma set_px_reads X x m : reads _ (@set_px X x) m.
Proof. intros s. repeat split. exists []. reflexivity. Qed.
Lemma get_px_writes X m : writes _ (@get_px X) m.
Proof. intros s. repeat split. exists []. symmetry; apply app_nil_r. Qed.
Lemma set_px_writes X x m : writes _ (@set_px X x) m.
Proof. intros s. repeat split. exists []. symmetry; apply app_nil_r. Qed.
Lemma get_px_stable X : stable _ (@get_px X) get_px.
Proof. intros x i o d v x' i' o' d' e H. cbv in *. congruence. Qed.
Lemma set_px_stable X x0 : stable _ (@set_px X x0) (set_px x0).
Proof. intros x i o d v x' i' o' d' e H. cbv in *. congruence. Qed.

Lemma readVarint_loop_reads X k : forall r sh m,
  reads _ (@readVarint_loop X k r sh) m.
Proof.
  induction k as [|k IH]; intros r sh m; cbn [readVarint_loop].
  - apply (rc_raise _ (reads_closed X)).
  - apply (rc_bind _ (reads_closed X)) with (m' := readAll 1)
      (k' := fun _ => readVarint); [apply readAll_reads|].
    intros a. destruct (_ =? 0); [|apply IH].
    intros s; repeat split; exists []; reflexivity.
Qed.
Lemma readVarint_reads X m : reads _ (@readVarint X) m.
Proof. apply readVarint_loop_reads. Qed.

Lemma readVarint_loop_stable X k : forall r sh,
  stable _ (@readVarint_loop X k r sh) (readVarint_loop k r sh).
Proof.
  induction k as [|k IH]; intros r sh; cbn [readVarint_loop].
  - apply (rc_raise _ (stable_closed X)).
  - apply (rc_bind _ (stable_closed X)); [apply readAll_stable|].
    intros a. destruct (_ =? 0); [apply (rc_ret _ (stable_closed X))|apply IH].
Qed.
Lemma readVarint_stable X : stable _ (@readVarint X) readVarint.
Proof. apply readVarint_loop_stable. Qed.

(** Go through a method built from these. *)
Ltac method RC :=
  repeat first
    [ apply readVarint_reads | apply readVarint_stable
    | apply (rc_ret _ RC) | apply (rc_raise _ RC) | apply (rc_div _ RC)
    | apply (rc_bind _ RC); [|intros]
    | apply readAll_reads | apply readAll_stable | apply twrite_writes
    | apply get_px_reads | apply set_px_reads | apply get_px_stable
    | apply set_px_stable | apply get_px_writes | apply set_px_writes
    | match goal with
      | |- _ _ (if ?b then _ else _) _ => destruct b
      | |- _ _ (match ?b with _ => _ end) _ => destruct b
      end ].

Ltac b_unfold :=
  cbn [binary writeStructBegin writeStructEnd writeFieldBegin writeFieldEnd
    writeFieldStop writeMapBegin writeMapEnd writeListBegin writeListEnd
    writeSetBegin writeSetEnd writeBool writeByte writeI16 writeI32 writeI64
    writeDouble writeString writeBinary writeUuid readStructBegin readStructEnd
    readFieldBegin readFieldEnd readMapBegin readMapEnd readListBegin
    readListEnd readSetBegin readSetEnd readBool readByte readI16 readI32
    readI64 readDouble readString readBinary readUuid];
  unfold b_pass, b_writeFieldBegin, b_writeFieldStop, b_writeMapBegin,
    b_writeListBegin, b_writeSetBegin, b_writeBool, b_writeString,
    b_writeBinary, b_writeUuid, b_writeDouble, b_writeByte, b_writeI16,
    b_writeI32, b_writeI64, b_readFieldBegin, b_readMapBegin, b_readListBegin,
    b_readSetBegin, b_readBool, b_readString, b_readBinary, b_readUuid,
    b_readDouble, b_readByte, b_readI16, b_readI32, b_readI64, check_length,
    pack_signed, encode_utf8, decode_utf8.

Lemma binary_reads cf : rreads (@reads unit) (binary cf).
Proof. constructor; b_unfold; method (reads_closed unit). Qed.
Lemma binary_stable cf : rreads (@stable unit) (binary cf).
Proof. constructor; b_unfold; method (stable_closed unit). Qed.
Lemma binary_writes cf : rwrites (@writes unit) (binary cf).
Proof. constructor; intros; b_unfold; method (writes_closed unit). Qed.

Ltac c_unfold :=
  cbn [compact writeStructBegin writeStructEnd writeFieldBegin writeFieldEnd
    writeFieldStop writeMapBegin writeMapEnd writeListBegin writeListEnd
    writeSetBegin writeSetEnd writeBool writeByte writeI16 writeI32 writeI64
    writeDouble writeString writeBinary writeUuid readStructBegin readStructEnd
    readFieldBegin readFieldEnd readMapBegin readMapEnd readListBegin
    readListEnd readSetBegin readSetEnd readBool readByte readI16 readI32
    readI64 readDouble readString readBinary readUuid];
  unfold c_writeStructBegin, c_writeStructEnd, c_writeFieldBegin,
    c_writeFieldEnd, c_writeFieldStop, c_writeMapBegin, c_writeCollectionBegin,
    c_writeCollectionEnd, c_writeBool, c_writeByte, c_writeI16, c_writeI32,
    c_writeI64, c_writeDouble, c_writeString, c_writeBinary, c_writeUuid,
    c_readStructBegin, c_readStructEnd, c_readFieldBegin, c_readFieldEnd,
    c_readMapBegin, c_readCollectionBegin, c_readCollectionEnd, c_readBool,
    c_readByte, c_readI16, c_readI32, c_readI64, c_readDouble, c_readString,
    c_readBinary, c_readUuid, c_readBinary_, c_readSize, c_readZigZag,
    c_readByte_, c_readUByte, c_writeFieldHeader, c_writeI16_, c_writeBinary_,
    c_writeByte_, c_writeUByte, makeZigZag, checkIntegerLimits, lookup_ctype,
    getTType, reader, writer, pop_struct, pop_container, upd, assert_state,
    assert_, writeVarint, check_length, pack_signed, pack_unsigned,
    encode_utf8, decode_utf8, assert_.

Lemma compact_reads cf : rreads (@reads cst) (compact cf).
Proof. constructor; c_unfold; method (reads_closed cst). Qed.
Lemma compact_stable cf : rreads (@stable cst) (compact cf).
Proof. constructor; c_unfold; method (stable_closed cst). Qed.
Lemma compact_writes cf : rwrites (@writes cst) (compact cf).
Proof. constructor; intros; c_unfold; method (writes_closed cst). Qed.
