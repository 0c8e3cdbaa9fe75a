(** The binary, compact and JSON protocols do not look at the depth counter. *)
From Coq Require Import ZArith List Bool Lia ZifyBool ZifyNat Sorted.
From Coq Require Import Init.Byte.
From Verif Require Import Base Bytes Utf8 Proto Dynamic SpecDynamic Closure
  FrameFacts Binary Compact JsonText Json DynamicFacts.
Import ListNotations.
Open Scope Z_scope.

Section Inst.
Variable q : exn -> Prop.
Hypothesis Hq : q (EProtocol TP_DEPTH_LIMIT).

(** * Atoms *)

Lemma readAll_ag X n : agree q _ (@readAll X n) (readAll n).
Proof.
  intros k s Hk. unfold readAll. destruct (n <=? 0); [split; [exact I|reflexivity]|].
  cbn [inp shift]. destruct (n <=? _); cbn; [split; [exact I|reflexivity]|].
  right. reflexivity.
Qed.
Lemma tread_ag X n : agree q _ (@tread X n) (tread n).
Proof. intros k s Hk. split; [exact I|reflexivity]. Qed.
Lemma twrite_ag X b : agree q _ (@twrite X b) (twrite b).
Proof. intros k s Hk. split; [exact I|reflexivity]. Qed.
Lemma get_px_ag X : agree q _ (@get_px X) get_px.
Proof. intros k s Hk. split; [exact I|reflexivity]. Qed.
Lemma set_px_ag X x : agree q _ (@set_px X x) (set_px x).
Proof. intros k s Hk. split; [exact I|reflexivity]. Qed.
Lemma len_ag X : agree q _ (fun s : st X => (Ok (length (inp s)), s))
                         (fun s : st X => (Ok (length (inp s)), s)).
Proof. intros k s Hk. split; [exact I|reflexivity]. Qed.

Ltac ag_with t :=
  repeat first
    [ t | apply (rc_ret _ (agree_closed q Hq)) | apply (rc_raise _ (agree_closed q Hq))
    | apply (rc_div _ (agree_closed q Hq))
    | apply readAll_ag | apply tread_ag | apply twrite_ag | apply get_px_ag
    | apply set_px_ag | apply len_ag
    | apply (rc_bind _ (agree_closed q Hq)); [|intros]
    | match goal with
      | |- _ _ (if ?b then _ else _) _ => destruct b
      | |- _ _ (match ?b with _ => _ end) _ => destruct b
      end ].
Ltac ag := ag_with fail.

(** * Binary *)

Lemma binary_ag_r cf : rreads (agree q) (binary cf).
Proof. constructor; b_unfold; ag. Qed.
Lemma binary_ag_w cf : rwrites (agree q) (binary cf).
Proof. constructor; intros; b_unfold; ag. Qed.

(** * Compact *)

Lemma readVarint_loop_ag X k : forall r sh,
  agree q _ (@readVarint_loop X k r sh) (readVarint_loop k r sh).
Proof.
  induction k as [|k IH]; intros r sh; cbn [readVarint_loop]; ag. apply IH.
Qed.
Lemma readVarint_ag X : agree q _ (@readVarint X) readVarint.
Proof.
  apply readVarint_loop_ag.
Qed.

Lemma compact_ag_r cf : rreads (agree q) (compact cf).
Proof.
  constructor; c_unfold; ag_with ltac:(apply readVarint_ag).
Qed.
Lemma compact_ag_w cf : rwrites (agree q) (compact cf).
Proof. constructor; intros; c_unfold; ag. Qed.

(** * JSON *)

Ltac j_base := unfold ctx_write, ctx_read, jwrite, doIO, escapeNum, pushContext,
  popContext, set_top, get_stack, set_stack, ord, chr, decode_ascii, decode_utf8,
  encode_utf8, check_length, readJSONSyntaxChar, readJSONQuotes, rd, peek, ctype, jtype,
  to_float, checkIntegerLimits.

Lemma run_loop_ag limit F : forall acc len,
  agree q _ (run_loop limit F acc len) (run_loop limit F acc len).
Proof.
  induction F as [|F IH]; intros; cbn [run_loop]; j_base; ag_with ltac:(apply IH).
Qed.
Lemma string_loop_ag limit F : forall hs acc len,
  agree q _ (string_loop limit F hs acc len) (string_loop limit F hs acc len).
Proof.
  induction F as [|F IH]; intros; cbn [string_loop]; [ag|]. j_base.
  ag_with ltac:(first [apply IH | apply run_loop_ag]).
Qed.
Lemma numeric_loop_ag limit F : forall acc len,
  agree q _ (numeric_loop limit F acc len) (numeric_loop limit F acc len).
Proof.
  induction F as [|F IH]; intros; cbn [numeric_loop]; [ag|]. j_base.
  ag_with ltac:(first [apply IH]).
Qed.
Lemma string_ag limit b : agree q _ (readJSONString limit b) (readJSONString limit b).
Proof.
  unfold readJSONString. j_base. ag_with ltac:(first [apply string_loop_ag]).
Qed.
Lemma numeric_ag limit : agree q _ (readJSONNumericChars limit) (readJSONNumericChars limit).
Proof.
  unfold readJSONNumericChars. ag_with ltac:(first [apply numeric_loop_ag]).
Qed.
Lemma integer_ag limit : agree q _ (readJSONInteger limit) (readJSONInteger limit).
Proof.
  unfold readJSONInteger. j_base. ag_with ltac:(first [apply numeric_ag]).
Qed.

Ltac j_unfold :=
  cbn [json writeStructBegin writeStructEnd writeFieldBegin writeFieldEnd
    writeFieldStop writeMapBegin writeMapEnd writeListBegin writeListEnd
    writeSetBegin writeSetEnd writeBool writeByte writeI16 writeI32 writeI64
    writeDouble writeString writeBinary writeUuid readStructBegin readStructEnd
    readFieldBegin readFieldEnd readMapBegin readMapEnd readListBegin
    readListEnd readSetBegin readSetEnd readBool readByte readI16 readI32
    readI64 readDouble readString readBinary readUuid];
  unfold j_writeStructBegin, j_writeStructEnd, j_writeFieldBegin, j_writeFieldEnd,
    j_writeFieldStop, j_writeMapBegin, j_writeMapEnd, j_writeListBegin,
    j_writeListEnd, j_writeBool, j_writeInt, j_writeDouble, j_writeUuid,
    writeJSONBase64, writeJSONObjectStart, writeJSONObjectEnd,
    writeJSONArrayStart, writeJSONArrayEnd, writeJSONNumber, writeJSONString,
    j_readFieldBegin, j_readMapBegin, j_readMapEnd, j_readListBegin, j_readBool,
    j_readUuid, readJSONObjectStart, readJSONObjectEnd, readJSONArrayStart,
    readJSONArrayEnd, readJSONDouble, readJSONBase64; j_base.

Lemma json_ag_r limit : rreads (agree q) (json limit).
Proof.
  constructor; j_unfold;
    ag_with ltac:(first [apply integer_ag | apply string_ag | apply numeric_ag]).
Qed.
Lemma json_ag_w limit : rwrites (agree q) (json limit).
Proof. constructor; intros; j_unfold; ag. Qed.

End Inst.
