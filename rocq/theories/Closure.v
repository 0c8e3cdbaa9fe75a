(** A relation between computations that is preserved by the building blocks
    of the model and holds between the protocol methods holds between the
    generated readers, writers and [skip] run with different amounts of
    fuel. *)
From Coq Require Import ZArith List Bool Lia ZifyBool.
From Coq Require Import Init.Byte.
From Verif Require Import Base Bytes Utf8 Proto.
Import ListNotations.
Open Scope Z_scope.

Record rclosed {X} (R : forall A, M X A -> M X A -> Prop) : Prop := {
  rc_ret : forall A (a : A), R A (ret a) (ret a);
  rc_raise : forall A e, R A (raise e) (raise e);
  rc_div : forall A (m : M X A), R A diverge m;
  rc_bind : forall A B (m m' : M X A) (k k' : A -> M X B),
    R A m m' -> (forall a, R B (k a) (k' a)) -> R B (bind m k) (bind m' k');
  rc_depth : forall A (m m' : M X A), R A m m' ->
    R A (with_depth m) (with_depth m') }.

Record rreads {X} (R : forall A, M X A -> M X A -> Prop) (P : proto X) : Prop := {
  rr_sbeg : R _ (readStructBegin P) (readStructBegin P);
  rr_send : R _ (readStructEnd P) (readStructEnd P);
  rr_fbeg : R _ (readFieldBegin P) (readFieldBegin P);
  rr_fend : R _ (readFieldEnd P) (readFieldEnd P);
  rr_mbeg : R _ (readMapBegin P) (readMapBegin P);
  rr_mend : R _ (readMapEnd P) (readMapEnd P);
  rr_lbeg : R _ (readListBegin P) (readListBegin P);
  rr_lend : R _ (readListEnd P) (readListEnd P);
  rr_tbeg : R _ (readSetBegin P) (readSetBegin P);
  rr_tend : R _ (readSetEnd P) (readSetEnd P);
  rr_bool : R _ (readBool P) (readBool P);
  rr_byte : R _ (readByte P) (readByte P);
  rr_i16 : R _ (readI16 P) (readI16 P);
  rr_i32 : R _ (readI32 P) (readI32 P);
  rr_i64 : R _ (readI64 P) (readI64 P);
  rr_dbl : R _ (readDouble P) (readDouble P);
  rr_str : R _ (readString P) (readString P);
  rr_bin : R _ (readBinary P) (readBinary P);
  rr_uuid : R _ (readUuid P) (readUuid P) }.

Record rwrites {X} (R : forall A, M X A -> M X A -> Prop) (P : proto X) : Prop := {
  rw_sbeg : R _ (writeStructBegin P) (writeStructBegin P);
  rw_send : R _ (writeStructEnd P) (writeStructEnd P);
  rw_fbeg : forall t i, R _ (writeFieldBegin P t i) (writeFieldBegin P t i);
  rw_fend : R _ (writeFieldEnd P) (writeFieldEnd P);
  rw_stop : R _ (writeFieldStop P) (writeFieldStop P);
  rw_mbeg : forall k t n, R _ (writeMapBegin P k t n) (writeMapBegin P k t n);
  rw_mend : R _ (writeMapEnd P) (writeMapEnd P);
  rw_lbeg : forall t n, R _ (writeListBegin P t n) (writeListBegin P t n);
  rw_lend : R _ (writeListEnd P) (writeListEnd P);
  rw_tbeg : forall t n, R _ (writeSetBegin P t n) (writeSetBegin P t n);
  rw_tend : R _ (writeSetEnd P) (writeSetEnd P);
  rw_bool : forall v, R _ (writeBool P v) (writeBool P v);
  rw_byte : forall v, R _ (writeByte P v) (writeByte P v);
  rw_i16 : forall v, R _ (writeI16 P v) (writeI16 P v);
  rw_i32 : forall v, R _ (writeI32 P v) (writeI32 P v);
  rw_i64 : forall v, R _ (writeI64 P v) (writeI64 P v);
  rw_dbl : forall v, R _ (writeDouble P v) (writeDouble P v);
  rw_str : forall v, R _ (writeString P v) (writeString P v);
  rw_bin : forall v, R _ (writeBinary P v) (writeBinary P v);
  rw_uuid : forall v, R _ (writeUuid P v) (writeUuid P v) }.

Section Closure.
Context {X : Type}.
Variable R : forall A, M X A -> M X A -> Prop.
Hypothesis RC : rclosed R.

Lemma rc_seq A B (m m' : M X A) (k k' : M X B) :
  R A m m' -> R B k k' -> R B (m ;;; k) (m' ;;; k').
Proof. intros. apply (rc_bind _ RC); auto. Qed.

Lemma repeatM_rel {A} F : forall F' n (f f' : A -> M X A) acc,
  (F <= F')%nat -> (forall a, R A (f a) (f' a)) ->
  R A (repeatM F n f acc) (repeatM F' n f' acc).
Proof.
  induction F as [|F IH]; intros F' n f f' acc HF Hf.
  - cbn [repeatM]. destruct (n <=? 0) eqn:E.
    + destruct F'; cbn [repeatM]; rewrite E; apply (rc_ret _ RC).
    + apply (rc_div _ RC).
  - destruct F' as [|F']; [lia|]. cbn [repeatM].
    destruct (n <=? 0); [apply (rc_ret _ RC)|].
    apply (rc_bind _ RC); [apply Hf|]. intros a. apply IH; [lia|assumption].
Qed.

Lemma mapM_rel {A} (f f' : A -> M X unit) l :
  Forall (fun a => R unit (f a) (f' a)) l -> R unit (mapM_ f l) (mapM_ f' l).
Proof.
  induction 1; cbn [mapM_]; [apply (rc_ret _ RC)|].
  apply rc_seq; assumption.
Qed.

Section Reads.
Variable P : proto X.
Hypothesis RP : rreads R P.

Lemma skip_fields_rel F : forall F' (sk sk' : Z -> M X unit), (F <= F')%nat ->
  (forall t, R unit (sk t) (sk' t)) ->
  R unit (skip_fields P F sk) (skip_fields P F' sk').
Proof.
  induction F as [|F IH]; intros F' sk sk' HF Hs; [apply (rc_div _ RC)|].
  destruct F' as [|F']; [lia|]. cbn [skip_fields].
  apply (rc_bind _ RC); [apply (rr_fbeg _ _ RP)|]. intros [t z].
  destruct (t =? T_STOP); [apply (rc_ret _ RC)|].
  apply rc_seq; [apply Hs|]. apply rc_seq; [apply (rr_fend _ _ RP)|].
  apply IH; [lia|assumption].
Qed.

Theorem skip_rel F F' k : (F <= F')%nat -> forall t,
  R unit (skip P F k t) (skip P F' k t).
Proof.
  intros HF. induction k as [|k IH]; intros t; [apply (rc_raise _ RC)|].
  cbn [skip].
  assert (B : forall A (m : M X A), R A m m -> R unit (m ;;; ret tt) (m ;;; ret tt)).
  { intros A m Hm. apply rc_seq; [assumption|apply (rc_ret _ RC)]. }
  repeat (match goal with |- R _ (if ?b then _ else _) _ => destruct b end);
    try (apply B; apply RP).
  - apply rc_seq; [apply RP|]. apply rc_seq; [|apply RP].
    apply skip_fields_rel; assumption.
  - apply (rc_bind _ RC); [apply RP|]. intros [[kt vt] n].
    apply rc_seq; [|apply RP]. apply repeatM_rel; [assumption|].
    intros _. apply rc_seq; apply IH.
  - apply (rc_bind _ RC); [apply RP|]. intros [et n].
    apply rc_seq; [|apply RP]. apply repeatM_rel; [assumption|].
    intros _. apply IH.
  - apply (rc_bind _ RC); [apply RP|]. intros [et n].
    apply rc_seq; [|apply RP]. apply repeatM_rel; [assumption|].
    intros _. apply IH.
  - apply (rc_raise _ RC).
Qed.

Lemma read_base_rel t : R value (read_base P t) (read_base P t).
Proof.
  destruct t; cbn [read_base];
    try (apply (rc_bind _ RC); [apply RP|intros; apply (rc_ret _ RC)]);
    apply (rc_raise _ RC).
Qed.

Lemma read_ty_rel rs rs' F F' t : (F <= F')%nat ->
  (forall n, R value (rs n) (rs' n)) ->
  R value (read_ty P rs F t) (read_ty P rs' F' t).
Proof.
  intros HF Hrs. induction t; cbn [read_ty]; try apply read_base_rel.
  - apply (rc_bind _ RC); [apply RP|]. intros [et n].
    apply (rc_bind _ RC).
    + apply repeatM_rel; [assumption|]. intros acc.
      apply (rc_bind _ RC); [assumption|]. intros; apply (rc_ret _ RC).
    + intros l. apply rc_seq; [apply RP|apply (rc_ret _ RC)].
  - apply (rc_bind _ RC); [apply RP|]. intros [et n].
    apply (rc_bind _ RC).
    + apply repeatM_rel; [assumption|]. intros acc.
      apply (rc_bind _ RC); [assumption|]. intros.
      destruct (hashable t); [apply (rc_ret _ RC)|apply (rc_raise _ RC)].
    + intros l. apply rc_seq; [apply RP|apply (rc_ret _ RC)].
  - apply (rc_bind _ RC); [apply RP|]. intros [[kt vt] n].
    apply (rc_bind _ RC).
    + apply repeatM_rel; [assumption|]. intros acc.
      apply (rc_bind _ RC); [assumption|]. intros.
      apply (rc_bind _ RC); [assumption|]. intros.
      destruct (hashable t1); [apply (rc_ret _ RC)|apply (rc_raise _ RC)].
    + intros l. apply rc_seq; [apply RP|apply (rc_ret _ RC)].
  - apply Hrs.
Qed.

Lemma read_fields_rel F : forall F' K K' rv rv' ds acc, (F <= F')%nat ->
  (K <= K')%nat -> (forall t, R value (rv t) (rv' t)) ->
  R _ (read_fields P F K rv ds acc) (read_fields P F' K' rv' ds acc).
Proof.
  induction F as [|F IH]; intros F' K K' rv rv' ds acc HF HK Hr;
    [apply (rc_div _ RC)|].
  destruct F' as [|F']; [lia|]. cbn [read_fields].
  apply (rc_bind _ RC); [apply RP|]. intros [t id].
  assert (S1 : R _ (skip P K SKIP_DEPTH t ;;; readFieldEnd P ;;;
                    read_fields P F K rv ds acc)
                   (skip P K' SKIP_DEPTH t ;;; readFieldEnd P ;;;
                    read_fields P F' K' rv' ds acc)).
  { apply rc_seq; [apply skip_rel; assumption|]. apply rc_seq; [apply RP|].
    apply IH; [lia|assumption|assumption]. }
  destruct (t =? T_STOP); [apply (rc_ret _ RC)|].
  destruct (find_field ds id) as [[i d]|]; [|exact S1].
  destruct (t =? code (f_ty d)); [|exact S1].
  apply (rc_bind _ RC); [apply Hr|]. intros v. apply rc_seq; [apply RP|].
  apply IH; [lia|assumption|assumption].
Qed.

Theorem read_struct_rel env k : forall k' F F' n, (k <= k')%nat ->
  (F <= F')%nat ->
  R value (read_struct P env k F n) (read_struct P env k' F' n).
Proof.
  induction k as [|k IH]; intros k' F F' n Hk HF; [apply (rc_div _ RC)|].
  destruct k' as [|k']; [lia|]. cbn [read_struct].
  destruct (nth_error env n) as [ds|]; [|apply (rc_raise _ RC)].
  apply (rc_depth _ RC). apply rc_seq; [apply RP|].
  apply (rc_bind _ RC).
  - apply read_fields_rel; [assumption|assumption|].
    intros t. apply read_ty_rel; [assumption|]. intros m. apply IH; [lia|assumption].
  - intros acc. apply rc_seq; [apply RP|apply (rc_ret _ RC)].
Qed.

End Reads.

Section Writes.
Variable P : proto X.
Hypothesis RP : rwrites R P.

Lemma write_base_rel t v : R unit (write_base P t v) (write_base P t v).
Proof.
  destruct t, v; cbn [write_base]; first [apply (rc_raise _ RC)|apply RP].
Qed.

Theorem write_value_rel env : forall v t,
  R unit (write_value P env t v) (write_value P env t v).
Proof.
  fix IH 1. intros v t.
  assert (L : forall l et, Forall (fun a => R unit (write_value P env et a)
                                            (write_value P env et a)) l).
  { fix IL 1. intros [|a l] et; constructor; [apply IH|apply IL]. }
  destruct v as [b|z|d|s|b|b|l|l|l|n fs]; destruct t as
    [| | | | | | | | |et|et|kt vt|m];
    cbn [write_value]; try apply write_base_rel.
  - apply rc_seq; [apply RP|]. apply rc_seq; [|apply RP].
    apply mapM_rel, L.
  - apply rc_seq; [apply RP|]. apply rc_seq; [|apply RP].
    apply mapM_rel, L.
  - apply rc_seq; [apply RP|]. apply rc_seq; [|apply RP].
    apply mapM_rel. clear L. revert l. fix IL 1. intros [|[a b] l]; constructor.
    + apply rc_seq; apply IH.
    + apply IL.
  - destruct (nth_error env n) as [ds|]; [|apply (rc_raise _ RC)].
    destruct (validate ds fs); [|apply (rc_raise _ RC)].
    apply (rc_depth _ RC). apply rc_seq; [apply RP|].
    apply rc_seq; [|apply rc_seq; apply RP].
    clear L. revert fs ds. fix IL 1. intros [|[x|] fs] [|d ds];
      cbn [write_fields]; try apply (rc_ret _ RC).
    + apply rc_seq; [apply RP|]. apply rc_seq; [apply IH|].
      apply rc_seq; [apply RP|]. apply IL.
    + apply IL.
Qed.

End Writes.
End Closure.
