(** Reading JSON terminates when there is a limit, and a successful read does not
    depend on the bytes after it. *)
From Coq Require Import ZArith List Bool Lia ZifyBool ZifyNat.
From Coq Require Import Init.Byte.
From Verif Require Import Base Bytes BytesFacts Utf8 Proto Spec Laws RoundTrip StructFacts
  Closure FrameFacts TermFacts SafetyFacts Compact BinaryLaws
  JsonText JsonTextFacts Json JsonLaws SpecJson JsonFacts.
Import ListNotations.
Open Scope Z_scope.

(** * Termination *)

(** The bytes read ahead. *)
Definition j_ahead (x : jst) : nat :=
  match ahead x with Some d => length d | None => O end.

(** The number of times something can still be read. *)
Definition turns (s : st jst) : nat :=
  ((match ahead (px s) with Some _ => 1 | None => 0 end) + length (inp s))%nat.

Section Limit.
Variable limit : option Z.

(** The only endless loop needs the limit to be off. *)
Definition j_div (_ : jst) (_ : list byte) : Prop := limit = None.

Notation jsz := (@sz jst j_ahead).

Definition jr {A} (k : nat) (m : MJ A) : Prop := forall s,
  match m s with
  | (Ok a, s') => (jsz s' + k <= jsz s)%nat /\ depth s' = depth s
  | (Raise _, _) => True
  | (Diverge, _) => limit = None
  end.

Lemma jr_ret A (a : A) : jr 0 (ret a).
Proof. intros s. cbn. split; [lia|reflexivity]. Qed.
Lemma jr_raise A k e : @jr A k (raise e).
Proof. intros s. exact I. Qed.
Lemma jr_weak A k k' (m : MJ A) : (k' <= k)%nat -> jr k m -> jr k' m.
Proof.
  intros H Hm s. specialize (Hm s). destruct (m s) as [[a|e|] s']; auto.
  destruct Hm. split; [lia|assumption].
Qed.
Lemma jr_bind A B k1 k2 (m : MJ A) (f : A -> MJ B) : jr k1 m -> (forall a, jr k2 (f a)) ->
  jr (k1 + k2) (bind m f).
Proof.
  intros Hm Hf s. unfold bind. specialize (Hm s). destruct (m s) as [[a|e|] s1]; auto.
  specialize (Hf a s1). destruct (f a s1) as [[b|e|] s2]; auto.
  destruct Hm, Hf. split; [lia|congruence].
Qed.
Lemma jr_first A B k (m : MJ A) (f : A -> MJ B) : jr k m -> (forall a, jr 0 (f a)) ->
  jr k (bind m f).
Proof. intros. apply jr_weak with (k := (k + 0)%nat); [lia|]. apply jr_bind; auto. Qed.
Lemma jr_then A B k (m : MJ A) (f : A -> MJ B) : jr 0 m -> (forall a, jr k (f a)) ->
  jr k (bind m f).
Proof. intros. change k with (0 + k)%nat. apply jr_bind; auto. Qed.
Lemma jr_zero A k (m : MJ A) : jr k m -> jr 0 m.
Proof. apply jr_weak. lia. Qed.

Lemma rd_step s : match rd s with
  | (Ok d, s') => (jsz s' + length d = jsz s)%nat /\ depth s' = depth s
                  /\ ahead (px s') = None /\ stack (px s') = stack (px s)
                  /\ (turns s' <= turns s)%nat
                  /\ (d <> [] -> (turns s' + 1 <= turns s)%nat)
  | _ => False
  end.
Proof.
  destruct s as [[c [a|]] i o d]; unfold rd, bind, get_px, set_px, tread, ret;
    cbn [px ahead stack].
  - unfold sz, turns, j_ahead. cbn. repeat split; lia.
  - destruct i as [|b r]; unfold sz, turns, j_ahead; cbn; repeat split; try lia;
      try congruence.
Qed.

Lemma rd_some d s : ahead (px s) = Some d ->
  rd s = (Ok d, mkst (mkj (stack (px s)) None) (inp s) (out s) (depth s)).
Proof. intros H. unfold rd, bind, get_px. rewrite H. reflexivity. Qed.

Lemma peek_step s : match peek s with
  | (Ok d, s') => jsz s' = jsz s /\ depth s' = depth s
                  /\ ahead (px s') = Some d /\ stack (px s') = stack (px s)
                  /\ (d <> [] -> turns s' = turns s)
  | _ => False
  end.
Proof.
  destruct s as [[c [a|]] i o d]; unfold peek, bind, get_px, set_px, tread, ret;
    cbn [px ahead stack].
  - unfold sz, turns, j_ahead. cbn. repeat split; lia.
  - destruct i as [|b r]; unfold sz, turns, j_ahead; cbn; repeat split; try lia;
      try congruence.
Qed.

Lemma check_length_jr n : jr 0 (@check_length jst limit n).
Proof.
  unfold check_length. destruct (n <? 0); [apply jr_raise|].
  destruct limit; [destruct (_ >? _)|]; try apply jr_raise; apply jr_ret.
Qed.

Lemma check_length_same n (s : st jst) : match check_length limit n s with
  | (Ok _, s') => s' = s | (Raise _, _) => True | (Diverge, _) => False end.
Proof.
  unfold check_length. destruct (n <? 0); [exact I|].
  destruct limit; [destruct (_ >? _)|]; try exact I; reflexivity.
Qed.

Lemma syntax_jr b : jr 1 (readJSONSyntaxChar b).
Proof.
  intros s. unfold readJSONSyntaxChar, bind. pose proof (rd_step s) as H.
  destruct (rd s) as [[d|e|] s1]; try contradiction. destruct H as (H1 & H2 & _).
  destruct (is_byte d b) eqn:E; [|exact I]. destruct d as [|c [|]]; try discriminate.
  cbn in *. split; [lia|exact H2].
Qed.

Ltac st_only := intros s; destruct s as [[c a] i o d];
  unfold set_top, escapeNum, pushContext, popContext, get_stack, set_stack, bind, get_px,
    set_px, ret, raise; cbn [px stack ahead];
  try destruct c; cbn [px stack ahead inp depth];
  try exact I; split; try reflexivity; unfold sz, j_ahead; cbn [px ahead inp]; lia.

Lemma set_top_jr t : jr 0 (set_top t).
Proof. st_only. Qed.
Lemma escapeNum_jr : jr 0 escapeNum.
Proof. st_only. Qed.
Lemma push_jr t : jr 0 (pushContext t).
Proof. st_only. Qed.
Lemma pop_jr : jr 0 popContext.
Proof. st_only. Qed.
Lemma get_stack_jr : jr 0 get_stack.
Proof. st_only. Qed.

Lemma ctx_read_jr : jr 0 ctx_read.
Proof.
  unfold ctx_read, doIO. apply jr_then; [apply get_stack_jr|]. intros c.
  destruct (top c) as [|[]|[] co]; try apply jr_ret; try apply set_top_jr.
  - eapply jr_zero, syntax_jr.
  - apply jr_then; [eapply jr_zero, syntax_jr|]. intros _. apply set_top_jr.
Qed.

(** What a loop with enough fuel does. *)
Definition lp {A} (m : MJ A) (s : st jst) : Prop :=
  match m s with
  | (Ok a, s') => (jsz s' <= jsz s)%nat /\ depth s' = depth s /\ (turns s' <= turns s)%nat
  | (Raise _, _) => True
  | (Diverge, _) => limit = None
  end.

Lemma run_loop_lp k : forall acc len s, (turns s < k)%nat -> lp (run_loop limit k acc len) s.
Proof.
  induction k as [|k IH]; intros acc len s Hk; [lia|].
  unfold lp. cbn [run_loop]. unfold bind at 1. pose proof (peek_step s) as H.
  destruct (peek s) as [[d|e|] s1]; try contradiction.
  destruct H as (H1 & H2 & H3 & _ & H5).
  destruct d as [|b [|]]; try exact I. specialize (H5 ltac:(discriminate)).
  cbn [ord]. unfold bind at 1. cbn [ret]. destruct (128 <=? b2z b).
  - unfold bind at 1. pose proof (rd_step s1) as R.
    destruct (rd s1) as [[d'|e|] s2] eqn:Er; try contradiction.
    destruct R as (R1 & R2 & _ & _ & R3 & R4).
    assert (Hd : d' = [b]).
    { rewrite (rd_some _ _ H3) in Er. congruence. }
    subst d'. specialize (R4 ltac:(discriminate)).
    unfold bind. pose proof (check_length_same (len + 1) s2) as C.
    destruct (check_length limit (len + 1) s2) as [[[]|e|] s3]; auto; [|contradiction].
    subst s3. specialize (IH (acc ++ [b]) (len + 1) s2 ltac:(lia)). unfold lp in IH.
    destruct (run_loop limit k _ _ s2) as [[a|e|] s4]; auto.
    destruct IH as (I1 & I2 & I3). repeat split; try lia; try congruence.
  - cbn [ret]. repeat split; try lia; try congruence.
Qed.

Lemma next_lp k (hs' : option Z) acc len s :
  (forall acc len s, (turns s < k)%nat -> lp (string_loop limit k None acc len) s) ->
  (turns s < k)%nat ->
  lp (check_length limit len ;;;
      match hs' with
      | Some _ => raise (EProtocol TP_INVALID_DATA)
      | None => string_loop limit k None acc len
      end) s.
Proof.
  intros IH Hk. unfold lp, bind. pose proof (check_length_same len s) as C.
  destruct (check_length limit len s) as [[[]|e|] s1]; auto; [|contradiction].
  subst s1. destruct hs'; [exact I|]. apply IH, Hk.
Qed.

Lemma lp_le {A} (m : MJ A) s s1 : lp m s1 -> (jsz s1 <= jsz s)%nat -> depth s1 = depth s ->
  (turns s1 <= turns s)%nat ->
  match m s1 with
  | (Ok a, s') => (jsz s' <= jsz s)%nat /\ depth s' = depth s /\ (turns s' <= turns s)%nat
  | (Raise _, _) => True
  | (Diverge, _) => limit = None
  end.
Proof.
  unfold lp. intros H H1 H2 H3. destruct (m s1) as [[a|e|] s']; auto.
  destruct H as (K1 & K2 & K3). repeat split; try lia; try congruence.
Qed.

Lemma tread_step n (s : st jst) : match tread n s with
  | (Ok l, s') => px s' = px s /\ depth s' = depth s /\ (length (inp s') <= length (inp s))%nat
  | _ => False
  end.
Proof.
  unfold tread. cbn. rewrite skipn_length. repeat split. lia.
Qed.

Lemma string_loop_lp k : forall hs acc len s, (turns s < k)%nat ->
  lp (string_loop limit k hs acc len) s.
Proof.
  induction k as [|k IH]; intros hs acc len s Hk; [lia|].
  unfold lp. cbn [string_loop]. unfold bind at 1. pose proof (rd_step s) as H.
  destruct (rd s) as [[d|e|] s1]; try contradiction.
  destruct H as (H1 & H2 & _ & _ & H5 & H6).
  destruct (is_byte d QUOTE). { cbn [ret]. repeat split; try lia; congruence. }
  destruct d as [|b [|]]; try exact I. specialize (H6 ltac:(discriminate)).
  cbn [length] in H1. cbn [ord]. unfold bind at 1. cbn [ret].
  destruct (b2z b =? 92).
  - unfold bind at 1. pose proof (rd_step s1) as R.
    destruct (rd s1) as [[d1|e|] s2]; try contradiction.
    destruct R as (R1 & R2 & _ & _ & R3 & R4).
    destruct d1 as [|b1 [|]]; try exact I. cbn [length] in R1.
    cbn [ord]. unfold bind at 1. cbn [ret].
    destruct (b2z b1 =? 117).
    + unfold bind at 1. pose proof (tread_step 4 s2) as T.
      destruct (tread 4 s2) as [[l|e|] s3]; try contradiction. destruct T as (T1 & T2 & T3).
      assert (S1 : (jsz s3 <= jsz s2)%nat) by (unfold sz; rewrite T1; lia).
      assert (S2 : (turns s3 <= turns s2)%nat) by (unfold turns; rewrite T1; lia).
      unfold decode_ascii. destruct (forallb _ l); [|exact I].
      unfold bind at 1. cbn [ret]. destruct (py_int16 (map b2z l)) as [u|]; [|exact I].
      destruct (is_high u).
      * destruct hs; [exact I|]. apply lp_le; try lia; try congruence. apply IH. lia.
      * destruct (is_low u).
        -- destruct hs; [|exact I]. apply lp_le; try lia; try congruence.
           apply (next_lp k None); [intros; apply IH; assumption|lia].
        -- unfold chr. destruct ((0 <=? u) && (u <=? 1114111)); [|exact I].
           unfold bind at 1. cbn [ret].
           apply lp_le; try lia; try congruence.
           apply next_lp; [intros; apply IH; assumption|lia].
    + destruct (unescape_char (b2z b1)); [|exact I].
      apply lp_le; try lia; try congruence.
      apply next_lp; [intros; apply IH; assumption|lia].
  - unfold bind at 1. unfold bind at 1.
    assert (Ht : (turns s1 < S (S (length (inp s1))))%nat).
    { unfold turns. destruct (ahead (px s1)); lia. }
    pose proof (run_loop_lp _ [b] (len + 1) s1 Ht) as R. unfold lp in R.
    destruct (run_loop limit _ [b] (len + 1) s1) as [[[run len']|e|] s2]; auto.
    destruct R as (R1 & R2 & R3). unfold decode_utf8.
    destruct (utf8_decode run); [|exact I]. unfold bind at 1. cbn [ret].
    apply lp_le; try lia; try congruence.
    apply next_lp; [intros; apply IH; assumption|lia].
Qed.

Lemma string_jr b : jr 1 (readJSONString limit b).
Proof.
  unfold readJSONString. apply jr_then.
  - destruct b; [apply jr_ret|apply ctx_read_jr].
  - intros _. apply jr_first; [apply syntax_jr|]. intros _ s. unfold bind.
    assert (Ht : (turns s < S (S (length (inp s))))%nat).
    { unfold turns. destruct (ahead (px s)); lia. }
    pose proof (string_loop_lp _ None [] 0 s Ht) as H. unfold lp in H.
    destruct (string_loop limit _ None [] 0 s) as [[a|e|] s']; auto.
    destruct H as (H1 & H2 & _). split; [lia|assumption].
Qed.

(** Reading digits: the result says how much was used. *)
Lemma numeric_loop_lp k : forall acc len s, (turns s < k)%nat ->
  match numeric_loop limit k acc len s with
  | (Ok a, s') => (jsz s' + length a <= jsz s + length acc)%nat /\ depth s' = depth s
  | (Raise _, _) => True
  | (Diverge, _) => limit = None
  end.
Proof.
  induction k as [|k IH]; intros acc len s Hk; [lia|].
  cbn [numeric_loop]. unfold bind at 1. pose proof (peek_step s) as H.
  destruct (peek s) as [[d|e|] s1]; try contradiction.
  destruct H as (H1 & H2 & H3 & _ & H5).
  destruct d as [|b r].
  - unfold bind. pose proof (rd_step s1) as R. destruct (rd s1) as [[|e|] s2];
      try contradiction. destruct limit; [exact I|reflexivity].
  - specialize (H5 ltac:(discriminate)). destruct (numeric b).
    + unfold bind at 1. pose proof (rd_step s1) as R.
      destruct (rd s1) as [[d'|e|] s2] eqn:Er; try contradiction.
      destruct R as (R1 & R2 & _ & _ & R3 & R4).
      assert (Hd : d' = b :: r).
      { rewrite (rd_some _ _ H3) in Er. congruence. }
      subst d'. specialize (R4 ltac:(discriminate)).
      unfold bind. pose proof (check_length_same (len + 1) s2) as C.
      destruct (check_length limit (len + 1) s2) as [[[]|e|] s3]; auto; [|contradiction].
      subst s3. specialize (IH (acc ++ b :: r) (len + 1) s2 ltac:(lia)).
      destruct (numeric_loop limit k _ _ s2) as [[a|e|] s4]; auto.
      destruct IH as (I1 & I2). rewrite app_length in I1. split; [lia|congruence].
    + cbn [ret]. split; [lia|congruence].
Qed.

Lemma numeric_jr {B} (f : list Z -> MJ B) : (forall n, jr 0 (f n)) ->
  (forall s, match f [] s with (Ok _, _) => False | (Diverge, _) => limit = None
             | _ => True end) ->
  jr 1 (n <- readJSONNumericChars limit ;; f n).
Proof.
  intros Hf H0 s. unfold readJSONNumericChars, bind.
  assert (Ht : (turns s < S (S (length (inp s))))%nat).
  { unfold turns. destruct (ahead (px s)); lia. }
  pose proof (numeric_loop_lp _ [] 0 s Ht) as H.
  destruct (numeric_loop limit _ [] 0 s) as [[a|e|] s1]; auto.
  destruct H as (H1 & H2). cbn [ret]. destruct a as [|b a].
  - specialize (H0 s1). cbn [map]. destruct (f [] s1) as [[r|e|] s2]; auto. contradiction.
  - specialize (Hf (map b2z (b :: a)) s1).
    destruct (f (map b2z (b :: a)) s1) as [[r|e|] s2]; auto. destruct Hf as [K1 K2].
    cbn [length] in H1. split; [lia|congruence].
Qed.

Lemma quotes_jr : jr 0 readJSONQuotes.
Proof.
  unfold readJSONQuotes. apply jr_then; [apply escapeNum_jr|]. intros [].
  - eapply jr_zero, syntax_jr.
  - apply jr_ret.
Qed.

Lemma integer_jr : jr 1 (readJSONInteger limit).
Proof.
  unfold readJSONInteger. apply jr_then; [apply ctx_read_jr|]. intros _.
  apply jr_then; [apply quotes_jr|]. intros _. apply numeric_jr.
  - intros n. apply jr_then; [apply quotes_jr|]. intros _.
    destruct (py_int n); [apply jr_ret|apply jr_raise].
  - intros s. unfold bind. pose proof (quotes_jr s) as H.
    destruct (readJSONQuotes s) as [[[]|e|] s1]; auto. reflexivity.
Qed.

Lemma to_float_jr n : jr 0 (to_float n).
Proof. unfold to_float. destruct (py_float n); [apply jr_ret|apply jr_raise]. Qed.

Lemma peek_jr : jr 0 peek.
Proof.
  intros s. pose proof (peek_step s) as H. destruct (peek s) as [[d|e|] s1]; try contradiction.
  destruct H as (H1 & H2 & _). split; [lia|assumption].
Qed.

Lemma double_jr : jr 1 (readJSONDouble limit).
Proof.
  unfold readJSONDouble. apply jr_then; [apply ctx_read_jr|]. intros _.
  apply jr_then; [apply peek_jr|]. intros d. destruct (is_byte d QUOTE).
  - apply jr_first; [apply string_jr|]. apply to_float_jr.
  - apply jr_then; [apply escapeNum_jr|]. intros q. apply jr_then.
    + destruct q; [eapply jr_zero, syntax_jr|apply jr_ret].
    + intros _. apply numeric_jr; [apply to_float_jr|]. intros s. exact I.
Qed.

Lemma base64_jr : jr 1 (readJSONBase64 limit).
Proof.
  unfold readJSONBase64. apply jr_first; [apply string_jr|]. intros s.
  destruct (b64decode _); [apply jr_ret|apply jr_raise].
Qed.

Lemma uuid_jr : jr 1 (j_readUuid limit).
Proof.
  unfold j_readUuid. apply jr_first; [apply string_jr|]. intros s.
  destruct (py_uuid s); [apply jr_ret|apply jr_raise].
Qed.

Lemma open_jr b t : jr 1 (ctx_read ;;; readJSONSyntaxChar b ;;; pushContext t).
Proof.
  apply jr_then; [apply ctx_read_jr|]. intros _. apply jr_first; [apply syntax_jr|].
  intros _. apply push_jr.
Qed.
Lemma close_jr b : jr 1 (readJSONSyntaxChar b ;;; popContext).
Proof. apply jr_first; [apply syntax_jr|]. intros _. apply pop_jr. Qed.

Lemma jtype_jr n : jr 0 (jtype n).
Proof. unfold jtype. destruct (find _ CTYPES) as [[]|]; [apply jr_ret|apply jr_raise]. Qed.

Ltac jr0 := repeat first
  [ apply jr_ret | apply jr_raise | apply jtype_jr | eapply jr_zero, string_jr
  | eapply jr_zero, integer_jr | eapply jr_zero, open_jr
  | apply jr_then; [|intros ?] ].

Lemma list_jr : jr 1 (j_readListBegin limit).
Proof. unfold j_readListBegin. apply jr_first; [apply open_jr|]. intros _. jr0. Qed.
Lemma map_jr : jr 1 (j_readMapBegin limit).
Proof. unfold j_readMapBegin. apply jr_first; [apply open_jr|]. intros _. jr0. Qed.
Lemma field_jr s : match j_readFieldBegin limit s with
  | (Ok r, s') => (if fst r =? T_STOP then (jsz s' + 0 <= jsz s)%nat
                   else (jsz s' + 1 <= jsz s)%nat) /\ depth s' = depth s
  | (Raise _, _) => True
  | (Diverge, _) => limit = None
  end.
Proof.
  unfold j_readFieldBegin. unfold bind at 1. pose proof (peek_step s) as H.
  destruct (peek s) as [[d|e|] s1]; try contradiction. destruct H as (H1 & H2 & _).
  destruct (is_byte d RBRACE).
  - cbn. split; [lia|congruence].
  - match goal with |- match ?m s1 with _ => _ end => assert (J : jr 1 m) end.
    { apply jr_first; [apply integer_jr|]. intros id. jr0. }
    specialize (J s1).
    match goal with |- match ?m with _ => _ end => destruct m as [[[t z]|e|] s2] end; auto.
    destruct J as [J1 J2]. cbn [fst]. split; [|congruence]. destruct (t =? T_STOP); lia.
Qed.

Lemma jr_runs A F d I k (m : MJ A) : jr k m ->
  runs j_ahead j_div F d I k (fun _ _ _ => True) m.
Proof.
  intros H s _ _ Hd. specialize (H s). destruct (m s) as [[a|e|] s']; auto.
  destruct H as [H1 H2]. repeat split; [lia|congruence].
Qed.

Definition json_term : term j_ahead j_div (json limit).
Proof.
  refine {| ks := 1; kt := 0; E := fun _ _ => True; elem := fun _ => True;
            Fp := fun _ _ => True; Sp := fun _ _ => True; Vp := fun _ _ => True;
            Lp := fun _ _ => True |}; auto;
    try (intros; apply jr_runs;
      cbn [json readStructBegin readStructEnd readFieldEnd readListBegin readListEnd
           readSetBegin readSetEnd readMapBegin readMapEnd]).
  - intros t F d Ht.
    enough (G : forall k I, (k <= 1)%nat ->
      runs j_ahead j_div F d I k (fun _ _ _ => True) (read_base (json limit) t))
      by (split; apply G; lia).
    intros k I0 Hk. apply jr_runs. apply jr_weak with (k := 1%nat); [exact Hk|].
    destruct t; try contradiction; cbn [read_base]; cbn [json readBool readByte readI16
      readI32 readI64 readDouble readString readBinary readUuid];
      (apply jr_first; [|intros; apply jr_ret]).
    + unfold j_readBool. apply jr_first; [apply integer_jr|]. intros; apply jr_ret.
    + apply integer_jr.
    + apply integer_jr.
    + apply integer_jr.
    + apply integer_jr.
    + apply double_jr.
    + apply string_jr.
    + apply base64_jr.
    + apply uuid_jr.
  - apply open_jr.
  - intros F d x s _ _ Hd. cbn [json readFieldBegin]. pose proof (field_jr s) as H.
    destruct (j_readFieldBegin limit s) as [[r|e|] s']; auto. destruct H as [H1 H2].
    split; [|congruence]. destruct (fst r =? T_STOP); auto.
  - eapply jr_zero, close_jr.
  - eapply jr_zero, close_jr.
  - apply list_jr.
  - eapply jr_zero, close_jr.
  - apply list_jr.
  - eapply jr_zero, close_jr.
  - apply map_jr.
  - unfold j_readMapEnd. apply jr_then; [eapply jr_zero, close_jr|].
    intros _. eapply jr_zero, close_jr.
Qed.

End Limit.

(** * Longer inputs *)

(** At most one byte has been read ahead. *)
Definition good (x : jst) : Prop :=
  match ahead x with None | Some [_] => True | _ => False end.

Definition jstable (A : Type) (m m' : MJ A) : Prop :=
  forall x i o d v x' i' o' d' e, good x ->
    m (mkst x i o d) = (Ok v, mkst x' i' o' d') ->
    good x' /\ m' (mkst x (i ++ e) o d) = (Ok v, mkst x' (i' ++ e) o' d').

Lemma jstable_closed : rclosed jstable.
Proof.
  constructor; unfold jstable.
  - intros A a x i o d v x' i' o' d' e G H. unfold ret in *.
    assert (x = x') by congruence. subst x'. split; [exact G|congruence].
  - intros A er x i o d v x' i' o' d' e _ H. discriminate.
  - intros A m x i o d v x' i' o' d' e _ H. discriminate.
  - intros A B m m' k k' Hm Hk x i o d v x' i' o' d' e G H. unfold bind in *.
    destruct (m (mkst x i o d)) as [[a|er|] [x1 i1 o1 d1]] eqn:E; try discriminate.
    destruct (Hm _ _ _ _ _ _ _ _ _ e G E) as [G1 E1]. rewrite E1. apply Hk; assumption.
  - intros A m m' Hm x i o d v x' i' o' d' e G H.
    unfold with_depth, increment_recursion_depth, bind, try_finally in *.
    cbn [depth px inp out] in *. destruct (_ >? _); [discriminate|].
    destruct (m (mkst x i o (d + 1))) as [r [x1 i1 o1 d1]] eqn:E.
    unfold decrement_recursion_depth in H. cbn [depth px inp out] in H.
    assert (r = Ok v) by congruence. subst r.
    destruct (Hm _ _ _ _ _ _ _ _ _ e G E) as [G1 E1]. rewrite E1.
    unfold decrement_recursion_depth. cbn [depth px inp out].
    assert (x1 = x') by congruence. subst x1. split; [exact G1|congruence].
Qed.

Definition RC := jstable_closed.

(** What read and peek find. *)
Lemma rd_good x i o d : good x ->
  (exists b i' x', rd (mkst x i o d) = (Ok [b], mkst x' i' o d) /\ ahead x' = None
     /\ forall e, rd (mkst x (i ++ e) o d) = (Ok [b], mkst x' (i' ++ e) o d))
  \/ (rd (mkst x i o d) = (Ok [], mkst x [] o d) /\ ahead x = None /\ i = []).
Proof.
  destruct x as [c [a|]]; unfold good; cbn [ahead].
  - destruct a as [|b [|]]; try contradiction. intros _. left.
    exists b, i, (mkj c None). repeat split.
  - intros _. destruct i as [|b r]; [right; repeat split|left].
    exists b, r, (mkj c None). repeat split.
Qed.

Lemma peek_good x i o d : good x ->
  (exists b i', peek (mkst x i o d) = (Ok [b], mkst (mkj (stack x) (Some [b])) i' o d)
     /\ forall e, peek (mkst x (i ++ e) o d)
                  = (Ok [b], mkst (mkj (stack x) (Some [b])) (i' ++ e) o d))
  \/ peek (mkst x i o d) = (Ok [], mkst (mkj (stack x) (Some [])) [] o d).
Proof.
  destruct x as [c [a|]]; unfold good; cbn [ahead stack].
  - destruct a as [|b [|]]; try contradiction. intros _. left.
    exists b, i. repeat split.
  - intros _. destruct i as [|b r]; [right; repeat split|left].
    exists b, r. repeat split.
Qed.

Lemma good_none x : ahead x = None -> good x.
Proof. unfold good. intros ->. exact I. Qed.

(** The end of input has been seen, by peek or by read. *)
Definition over (s : st jst) : Prop :=
  ahead (px s) = Some [] \/ (ahead (px s) = None /\ inp s = []).

Definition no_ok {A} (m : MJ A) : Prop := forall s, over s ->
  match m s with (Ok _, _) => False | _ => True end.

(** Steps that do not read keep that. *)
Definition quiet {A} (m : MJ A) : Prop := forall s, over s ->
  match m s with (Ok _, s') => over s' | _ => True end.

Lemma no_ok_first A B (m : MJ A) (f : A -> MJ B) : no_ok m -> no_ok (bind m f).
Proof.
  intros H s Hs. unfold bind. specialize (H s Hs). destruct (m s) as [[a|e|] s1]; auto.
  contradiction.
Qed.
Lemma no_ok_then A B (m : MJ A) (f : A -> MJ B) : quiet m -> (forall a, no_ok (f a)) ->
  no_ok (bind m f).
Proof.
  intros H Hf s Hs. unfold bind. specialize (H s Hs). destruct (m s) as [[a|e|] s1]; auto.
  apply Hf, H.
Qed.
Lemma quiet_bind A B (m : MJ A) (f : A -> MJ B) : quiet m -> (forall a, quiet (f a)) ->
  quiet (bind m f).
Proof.
  intros H Hf s Hs. unfold bind. specialize (H s Hs). destruct (m s) as [[a|e|] s1]; auto.
  apply Hf, H.
Qed.
Lemma quiet_ret A (a : A) : quiet (ret a).
Proof. intros s Hs. exact Hs. Qed.
Lemma quiet_no_ok A (m : MJ A) : no_ok m -> quiet m.
Proof. intros H s Hs. specialize (H s Hs). destruct (m s) as [[]]; auto; contradiction. Qed.

Lemma rd_over s : over s -> exists s', rd s = (Ok [], s') /\ (over s -> inp s = [] -> over s').
Proof.
  destruct s as [[c a] i o d]. unfold over. cbn [px ahead inp]. intros [->|[-> ->]].
  - eexists. split; [reflexivity|]. intros _ ->. right. split; reflexivity.
  - eexists. split; [reflexivity|]. intros _ _. right. split; reflexivity.
Qed.

Lemma syntax_no_ok b : no_ok (readJSONSyntaxChar b).
Proof.
  intros s Hs. destruct (rd_over s Hs) as (s' & E & _).
  unfold readJSONSyntaxChar, bind. rewrite E. exact I.
Qed.

Ltac quiet_only := intros s Hs; destruct s as [[c a] i o d];
  unfold over, set_top, escapeNum, pushContext, popContext, get_stack, set_stack, bind,
    get_px, set_px, ret, raise in *; cbn [px stack ahead inp] in *;
  try destruct c; cbn [px stack ahead inp]; auto.

Lemma get_stack_quiet : quiet get_stack. Proof. quiet_only. Qed.
Lemma set_top_quiet t : quiet (set_top t). Proof. quiet_only. Qed.
Lemma escapeNum_quiet : quiet escapeNum. Proof. quiet_only. Qed.

Lemma ctx_read_quiet : quiet ctx_read.
Proof.
  unfold ctx_read, doIO. apply quiet_bind; [apply get_stack_quiet|]. intros c.
  destruct (top c) as [|[]|[] co]; try apply quiet_ret; try apply set_top_quiet.
  - apply quiet_no_ok, syntax_no_ok.
  - apply quiet_no_ok, no_ok_first, syntax_no_ok.
Qed.

Lemma quotes_quiet : quiet readJSONQuotes.
Proof.
  unfold readJSONQuotes. apply quiet_bind; [apply escapeNum_quiet|]. intros [].
  - apply quiet_no_ok, syntax_no_ok.
  - apply quiet_ret.
Qed.

Section Limit.
Variable limit : option Z.

Lemma peek_over s : over s -> exists s', peek s = (Ok [], s').
Proof.
  destruct s as [[c a] i o d]. unfold over. cbn [px ahead inp]. intros [->|[-> ->]];
    eexists; reflexivity.
Qed.

Lemma rd_any s : exists l s', rd s = (Ok l, s').
Proof. destruct s as [[c [a|]] i o d]; eexists; eexists; reflexivity. Qed.

Lemma numeric_loop_no_ok k acc len : no_ok (numeric_loop limit k acc len).
Proof.
  intros s Hs. destruct k as [|k]; [exact I|]. cbn [numeric_loop]. unfold bind.
  destruct (peek_over s Hs) as [s1 ->].
  destruct (rd_any s1) as (l & s2 & ->). destruct limit; exact I.
Qed.

Lemma numeric_no_ok : no_ok (readJSONNumericChars limit).
Proof.
  intros s Hs. unfold readJSONNumericChars, bind.
  pose proof (numeric_loop_no_ok (S (S (length (inp s)))) [] 0 s Hs) as H.
  destruct (numeric_loop limit _ [] 0 s) as [[a|e|] s1]; auto.
Qed.

Lemma integer_no_ok : no_ok (readJSONInteger limit).
Proof.
  unfold readJSONInteger. apply no_ok_then; [apply ctx_read_quiet|]. intros _.
  apply no_ok_then; [apply quotes_quiet|]. intros _. apply no_ok_first, numeric_no_ok.
Qed.

(** A step that looks at one character. *)
Lemma jst_rd A (k k' : list byte -> MJ A) :
  (forall b, jstable A (k [b]) (k' [b])) -> no_ok (k []) ->
  jstable A (d <- rd ;; k d) (d <- rd ;; k' d).
Proof.
  intros H H0 x i o d v x' i' o' d' e G E. unfold bind in *.
  destruct (rd_good x i o d G) as [(b & i1 & x1 & E1 & A1 & E2)|(E1 & A1 & _)];
    rewrite E1 in E.
  - rewrite E2. apply H; [apply good_none, A1|exact E].
  - specialize (H0 (mkst x [] o d) (or_intror (conj A1 eq_refl))). rewrite E in H0.
    contradiction.
Qed.

Lemma jst_peek A (k k' : list byte -> MJ A) :
  (forall b, jstable A (k [b]) (k' [b])) ->
  no_ok (k []) -> jstable A (d <- peek ;; k d) (d <- peek ;; k' d).
Proof.
  intros H H0 x i o d v x' i' o' d' e G E. unfold bind in *.
  destruct (peek_good x i o d G) as [(b & i1 & E1 & E2)|E1]; rewrite E1 in E.
  - rewrite E2. apply H; [exact I|exact E].
  - specialize (H0 (mkst (mkj (stack x) (Some [])) [] o d) (or_introl eq_refl)).
    rewrite E in H0. contradiction.
Qed.

Lemma syntax_jst b : jstable _ (readJSONSyntaxChar b) (readJSONSyntaxChar b).
Proof.
  unfold readJSONSyntaxChar. apply jst_rd.
  - intros c. destruct (is_byte [c] b); [apply (rc_ret _ RC)|apply (rc_raise _ RC)].
  - intros s _. exact I.
Qed.

(** Steps on the context stack only. *)
Ltac st_jst := intros x i o d v x' i' o' d' e G H; destruct x as [c a];
  unfold set_top, escapeNum, pushContext, popContext, get_stack, set_stack, bind,
    get_px, set_px, ret, raise in *; cbn [px stack ahead inp out depth] in *;
  try destruct c; cbn [px stack ahead inp out depth] in *; try discriminate;
  match type of H with (_, mkst ?x1 _ _ _) = _ =>
    assert (Ex : x1 = x') by congruence; rewrite <- Ex end; (split; [exact G|congruence]).

Lemma get_stack_jst : jstable _ get_stack get_stack. Proof. st_jst. Qed.
Lemma set_top_jst t : jstable _ (set_top t) (set_top t). Proof. st_jst. Qed.
Lemma escapeNum_jst : jstable _ escapeNum escapeNum. Proof. st_jst. Qed.
Lemma push_jst t : jstable _ (pushContext t) (pushContext t). Proof. st_jst. Qed.
Lemma pop_jst : jstable _ popContext popContext. Proof. st_jst. Qed.

Lemma ctx_read_jst : jstable _ ctx_read ctx_read.
Proof.
  unfold ctx_read, doIO. apply (rc_bind _ RC); [apply get_stack_jst|]. intros c.
  destruct (top c) as [|[]|[] co]; try apply (rc_ret _ RC); try apply set_top_jst.
  - apply syntax_jst.
  - apply (rc_bind _ RC); [apply syntax_jst|]. intros _. apply set_top_jst.
Qed.

Lemma quotes_jst : jstable _ readJSONQuotes readJSONQuotes.
Proof.
  unfold readJSONQuotes. apply (rc_bind _ RC); [apply escapeNum_jst|]. intros [].
  - apply syntax_jst.
  - apply (rc_ret _ RC).
Qed.

Lemma check_length_jst n : jstable _ (@check_length jst limit n) (check_length limit n).
Proof.
  unfold check_length. destruct (n <? 0); [apply (rc_raise _ RC)|].
  destruct limit; [destruct (_ >? _)|]; try apply (rc_raise _ RC); apply (rc_ret _ RC).
Qed.

Lemma ord_jst d : jstable _ (@ord (st jst) d) (ord d).
Proof.
  unfold ord. destruct d as [|b [|]]; try apply (rc_raise _ RC); apply (rc_ret _ RC).
Qed.

Lemma run_loop_no_ok k acc len : no_ok (run_loop limit k acc len).
Proof.
  intros s Hs. destruct k as [|k]; [exact I|]. cbn [run_loop]. unfold bind.
  destruct (peek_over s Hs) as [s1 ->]. exact I.
Qed.

Lemma check_quiet n : quiet (@check_length jst limit n).
Proof.
  unfold check_length. destruct (n <? 0); [intros s Hs; exact I|].
  destruct limit; [destruct (_ >? _)|]; try (intros s Hs; exact I); apply quiet_ret.
Qed.

Lemma run_loop_jst k : forall k' acc len, (k <= k')%nat ->
  jstable _ (run_loop limit k acc len) (run_loop limit k' acc len).
Proof.
  induction k as [|k IH]; intros k' acc len Hk; [apply (rc_div _ RC)|].
  destruct k' as [|k']; [lia|]. cbn [run_loop]. apply jst_peek.
  - intros b. apply (rc_bind _ RC); [apply ord_jst|]. intros c.
    destruct (128 <=? c); [|apply (rc_ret _ RC)].
    apply jst_rd.
    + intros d. apply (rc_bind _ RC); [apply check_length_jst|]. intros _. apply IH. lia.
    + apply no_ok_then; [apply check_quiet|]. intros _. apply run_loop_no_ok.
  - intros s _. exact I.
Qed.

Lemma numeric_loop_jst k : forall k' acc len, (k <= k')%nat ->
  jstable _ (numeric_loop limit k acc len) (numeric_loop limit k' acc len).
Proof.
  induction k as [|k IH]; intros k' acc len Hk; [apply (rc_div _ RC)|].
  destruct k' as [|k']; [lia|]. cbn [numeric_loop]. apply jst_peek.
  - intros b. destruct (numeric b); [|apply (rc_ret _ RC)]. apply jst_rd.
    + intros d. apply (rc_bind _ RC); [apply check_length_jst|]. intros _. apply IH. lia.
    + apply no_ok_then; [apply check_quiet|]. intros _. apply numeric_loop_no_ok.
  - intros s Hs. unfold bind. destruct (rd_any s) as (l & s2 & ->).
    destruct limit; exact I.
Qed.

(** A loop whose fuel is the length of the input. *)
Lemma jst_fuel A (f f' : nat -> MJ A) :
  (forall n n', (n <= n')%nat -> jstable A (f n) (f' n')) ->
  jstable A (n <- (fun s : st jst => (Ok (length (inp s)), s)) ;; f n)
            (n <- (fun s : st jst => (Ok (length (inp s)), s)) ;; f' n).
Proof.
  intros H x i o d v x' i' o' d' e G E. unfold bind in *. cbn [inp] in *.
  apply (H (length i)); [rewrite app_length; lia|exact G|exact E].
Qed.

Lemma string_loop_no_ok k hs acc len : no_ok (string_loop limit k hs acc len).
Proof.
  intros s Hs. destruct k as [|k]; [exact I|]. cbn [string_loop]. unfold bind.
  destruct (rd_over s Hs) as (s' & -> & _). exact I.
Qed.

(** Reading four bytes of which some are missing leaves nothing. *)
Lemma tread4_jst A (k k' : list byte -> MJ A) :
  (forall l, jstable A (k l) (k' l)) -> (forall l, no_ok (k l)) ->
  forall x i o d v x' i' o' d' e, ahead x = None ->
    (l <- tread 4 ;; k l) (mkst x i o d) = (Ok v, mkst x' i' o' d') ->
    good x' /\ (l <- tread 4 ;; k' l) (mkst x (i ++ e) o d)
               = (Ok v, mkst x' (i' ++ e) o' d').
Proof.
  intros H H0 x i o d v x' i' o' d' e A1 E.
  destruct (Nat.le_gt_cases 4 (length i)) as [L|L].
  - destruct i as [|a [|b [|c [|f r]]]]; cbn in L; try lia.
    apply (H [a; b; c; f]); [apply good_none, A1|exact E].
  - exfalso. unfold bind in E.
    assert (T : exists l, @tread jst 4 (mkst x i o d) = (Ok l, mkst x [] o d)).
    { exists i. destruct i as [|a [|b [|c [|f r]]]]; try reflexivity. cbn in L. lia. }
    destruct T as [l T]. rewrite T in E.
    specialize (H0 l (mkst x [] o d) (or_intror (conj A1 eq_refl))).
    rewrite E in H0. contradiction.
Qed.

Lemma next_jst k k' (hs' : option Z) acc len :
  (forall acc len, jstable _ (string_loop limit k None acc len)
                             (string_loop limit k' None acc len)) ->
  jstable _ (check_length limit len ;;;
      match hs' with
      | Some _ => raise (EProtocol TP_INVALID_DATA)
      | None => string_loop limit k None acc len
      end) (check_length limit len ;;;
      match hs' with
      | Some _ => raise (EProtocol TP_INVALID_DATA)
      | None => string_loop limit k' None acc len
      end).
Proof.
  intros H. apply (rc_bind _ RC); [apply check_length_jst|]. intros _.
  destruct hs'; [apply (rc_raise _ RC)|apply H].
Qed.

Lemma next_no_ok k (hs' : option Z) acc len :
  no_ok (check_length limit len ;;;
      match hs' with
      | Some _ => raise (EProtocol TP_INVALID_DATA)
      | None => string_loop limit k None acc len
      end).
Proof.
  apply no_ok_then; [apply check_quiet|]. intros _.
  destruct hs'; [intros s _; exact I|apply string_loop_no_ok].
Qed.

Lemma string_loop_jst k : forall k' hs acc len, (k <= k')%nat ->
  jstable _ (string_loop limit k hs acc len) (string_loop limit k' hs acc len).
Proof.
  induction k as [|k IH]; intros k' hs acc len Hk; [apply (rc_div _ RC)|].
  destruct k' as [|k']; [lia|]. cbn [string_loop]. apply jst_rd.
  - intros b. destruct (is_byte [b] QUOTE); [apply (rc_ret _ RC)|].
    apply (rc_bind _ RC); [apply ord_jst|]. intros c. destruct (c =? 92).
    + intros x i o d v x' i' o' d' e G E. unfold bind at 1 in E. unfold bind at 1.
      destruct (rd_good x i o d G) as [(b1 & i1 & x1 & E1 & A1 & E2)|(E1 & A1 & _)];
        rewrite E1 in E; [|discriminate E]. rewrite E2.
      unfold bind at 1 in E. unfold bind at 1. cbn [ord ret] in E |- *.
      destruct (b2z b1 =? 117).
      * revert E. apply tread4_jst; [| |exact A1].
        -- intros l. apply (rc_bind _ RC).
           { unfold decode_ascii. destruct (forallb _ l);
               [apply (rc_ret _ RC)|apply (rc_raise _ RC)]. }
           intros t.
           destruct (py_int16 t) as [u|]; [|apply (rc_raise _ RC)].
           destruct (is_high u).
           ++ destruct hs; [apply (rc_raise _ RC)|apply IH; lia].
           ++ destruct (is_low u).
              ** destruct hs; [|apply (rc_raise _ RC)].
                 apply (next_jst k k' None). intros; apply IH; lia.
              ** apply (rc_bind _ RC).
                 { unfold chr. destruct (_ && _); [apply (rc_ret _ RC)|apply (rc_raise _ RC)]. }
                 intros ch. apply next_jst. intros; apply IH; lia.
        -- intros l. unfold decode_ascii. destruct (forallb _ l); [|intros s _; exact I].
           apply no_ok_then; [apply quiet_ret|]. intros t.
           destruct (py_int16 t) as [u|]; [|intros s _; exact I].
           destruct (is_high u).
           ++ destruct hs; [intros s _; exact I|apply string_loop_no_ok].
           ++ destruct (is_low u).
              ** destruct hs; [|intros s _; exact I]. apply (next_no_ok k None).
              ** unfold chr. destruct (_ && _); [|intros s _; exact I].
                 apply no_ok_then; [apply quiet_ret|]. intros ch. apply next_no_ok.
      * assert (J : jstable _
          (match unescape_char (b2z b1) with
           | None => raise (EProtocol TP_INVALID_DATA)
           | Some e => check_length limit (len + 2) ;;;
               match hs with
               | Some _ => raise (EProtocol TP_INVALID_DATA)
               | None => string_loop limit k None (acc ++ [e]) (len + 2)
               end
           end)
          (match unescape_char (b2z b1) with
           | None => raise (EProtocol TP_INVALID_DATA)
           | Some e => check_length limit (len + 2) ;;;
               match hs with
               | Some _ => raise (EProtocol TP_INVALID_DATA)
               | None => string_loop limit k' None (acc ++ [e]) (len + 2)
               end
           end)).
        { destruct (unescape_char (b2z b1)); [|apply (rc_raise _ RC)].
          apply next_jst. intros; apply IH; lia. }
        apply J; [apply good_none, A1|exact E].
    + apply jst_fuel. intros n n' Hn. apply (rc_bind _ RC); [apply run_loop_jst; lia|].
      intros [run len']. apply (rc_bind _ RC).
      { unfold decode_utf8. destruct (utf8_decode run);
          [apply (rc_ret _ RC)|apply (rc_raise _ RC)]. }
      intros cs. apply next_jst. intros; apply IH; lia.
  - intros s _. exact I.
Qed.

Lemma string_jst b : jstable _ (readJSONString limit b) (readJSONString limit b).
Proof.
  unfold readJSONString. apply (rc_bind _ RC).
  - destruct b; [apply (rc_ret _ RC)|apply ctx_read_jst].
  - intros _. apply (rc_bind _ RC); [apply syntax_jst|]. intros _.
    apply jst_fuel. intros n n' Hn. apply string_loop_jst. lia.
Qed.

Lemma numeric_jst : jstable _ (readJSONNumericChars limit) (readJSONNumericChars limit).
Proof.
  unfold readJSONNumericChars. apply jst_fuel. intros n n' Hn.
  apply (rc_bind _ RC); [apply numeric_loop_jst; lia|]. intros. apply (rc_ret _ RC).
Qed.

Lemma integer_jst : jstable _ (readJSONInteger limit) (readJSONInteger limit).
Proof.
  unfold readJSONInteger. apply (rc_bind _ RC); [apply ctx_read_jst|]. intros _.
  apply (rc_bind _ RC); [apply quotes_jst|]. intros _.
  apply (rc_bind _ RC); [apply numeric_jst|]. intros n.
  apply (rc_bind _ RC); [apply quotes_jst|]. intros _.
  destruct (py_int n); [apply (rc_ret _ RC)|apply (rc_raise _ RC)].
Qed.

Lemma to_float_jst n : jstable _ (to_float n) (to_float n).
Proof. unfold to_float. destruct (py_float n); [apply (rc_ret _ RC)|apply (rc_raise _ RC)]. Qed.

Lemma double_jst : jstable _ (readJSONDouble limit) (readJSONDouble limit).
Proof.
  unfold readJSONDouble. apply (rc_bind _ RC); [apply ctx_read_jst|]. intros _.
  apply jst_peek.
  - intros b. destruct (is_byte [b] QUOTE).
    + apply (rc_bind _ RC); [apply string_jst|]. apply to_float_jst.
    + apply (rc_bind _ RC); [apply escapeNum_jst|]. intros q. apply (rc_bind _ RC).
      * destruct q; [apply syntax_jst|apply (rc_ret _ RC)].
      * intros _. apply (rc_bind _ RC); [apply numeric_jst|]. apply to_float_jst.
  - cbn [is_byte]. apply no_ok_then; [apply escapeNum_quiet|]. intros q.
    destruct q.
    + apply no_ok_first, syntax_no_ok.
    + apply no_ok_then; [apply quiet_ret|]. intros _. apply no_ok_first, numeric_no_ok.
Qed.

Lemma base64_jst : jstable _ (readJSONBase64 limit) (readJSONBase64 limit).
Proof.
  unfold readJSONBase64. apply (rc_bind _ RC); [apply string_jst|]. intros s.
  destruct (b64decode _); [apply (rc_ret _ RC)|apply (rc_raise _ RC)].
Qed.

Lemma jtype_jst n : jstable _ (jtype n) (jtype n).
Proof.
  unfold jtype. destruct (find _ CTYPES) as [[]|]; [apply (rc_ret _ RC)|apply (rc_raise _ RC)].
Qed.

Ltac jstep := repeat first
  [ apply (rc_ret _ RC) | apply (rc_raise _ RC) | apply jtype_jst | apply string_jst
  | apply integer_jst | apply syntax_jst | apply ctx_read_jst | apply push_jst
  | apply pop_jst | apply (rc_bind _ RC); [|intros ?] ].

Lemma json_stable : rreads jstable (json limit).
Proof.
  constructor; cbn [json readStructBegin readStructEnd readFieldBegin readFieldEnd
    readMapBegin readMapEnd readListBegin readListEnd readSetBegin readSetEnd readBool
    readByte readI16 readI32 readI64 readDouble readString readBinary readUuid];
    unfold j_readMapBegin, j_readMapEnd, j_readListBegin, readJSONObjectStart,
      readJSONObjectEnd, readJSONArrayStart, readJSONArrayEnd, j_readBool.
  3: { unfold j_readFieldBegin. apply jst_peek.
       - intros b. destruct (is_byte [b] RBRACE); [apply (rc_ret _ RC)|].
         unfold readJSONObjectStart. jstep.
       - cbn [is_byte]. apply no_ok_first, integer_no_ok. }
  all: try solve [jstep].
  - apply double_jst.
  - apply base64_jst.
  - unfold j_readUuid. apply (rc_bind _ RC); [apply string_jst|]. intros s.
    destruct (py_uuid s); [apply (rc_ret _ RC)|apply (rc_raise _ RC)].
Qed.

Lemma json_deserialize_app env n buf v rest e :
  deserialize (json limit) j_init env n buf = Ok (v, rest) ->
  deserialize (json limit) j_init env n (buf ++ e) = Ok (v, rest ++ e).
Proof.
  unfold deserialize.
  destruct (read_struct (json limit) env DFUEL (S (length buf)) n (mkst j_init buf [] 0))
    as [[a|er|] [x' i' o' d']] eqn:E; try discriminate.
  intros H. assert (a = v /\ i' = rest) as [-> ->] by (cbn in H; split; congruence).
  pose proof (read_struct_rel jstable RC _ json_stable env DFUEL DFUEL
    (S (length buf)) (S (length (buf ++ e))) n ltac:(lia)
    ltac:(rewrite app_length; lia)) as HS.
  destruct (HS _ _ _ _ _ _ _ _ _ e (I : good j_init) E) as [_ E2]. rewrite E2. reflexivity.
Qed.

(** A document cut short is never read. *)
Lemma json_deserialize_prefix env n p q v :
  deserialize (json limit) j_init env n (p ++ q) = Ok (v, []) -> q <> [] ->
  (exists e, deserialize (json limit) j_init env n p = Raise e)
  \/ (limit = None /\ deserialize (json limit) j_init env n p = Diverge).
Proof.
  intros H Hq. destruct (deserialize (json limit) j_init env n p) as [[w rest]|e|] eqn:E.
  - apply json_deserialize_app with (e := q) in E.
    assert (rest ++ q = []) by congruence. destruct rest; [|discriminate].
    contradiction.
  - left. exists e; reflexivity.
  - right. split; [|reflexivity]. unfold deserialize in E.
    pose proof (read_struct_runs _ _ (json_term limit) (S (length p)) env DFUEL 0 n
      ltac:(lia) ltac:(unfold DFUEL; lia)) as [R _].
    specialize (R (mkst j_init p [] 0) I ltac:(unfold sz; cbn; lia) eq_refl).
    destruct (read_struct (json limit) env DFUEL (S (length p)) n (mkst j_init p [] 0))
      as [[a|e|] s']; try discriminate. exact R.
Qed.

End Limit.

(** With a limit every read ends. *)
Lemma json_deserialize_terminates l env n buf :
  deserialize (json (Some l)) j_init env n buf <> Diverge.
Proof.
  apply (deserialize_terminates (json_term (Some l))); [|reflexivity].
  intros x i H. discriminate.
Qed.

Lemma json_skip_terminates l k t x i o d : exists r s',
  r <> Diverge /\ forall F, (j_ahead x + length i < F)%nat ->
    skip (json (Some l)) F k t (mkst x i o d) = (r, s').
Proof.
  apply (skip_terminates (json_term (Some l))). intros y j H. discriminate.
Qed.

(** * A number at the end of the input *)

Definition at_end (limit : option Z) {A} : outcome A :=
  match limit with None => Diverge | Some _ => Raise (ETransport TT_SIZE_LIMIT) end.

Lemma numeric_loop_cut limit h : forall k acc len c x i o d,
  forallb numeric h = true -> j_rrep c x i h -> (length h < k)%nat -> 0 <= len ->
  exists s', numeric_loop limit k acc len (mkst x i o d) = (at_end limit, s').
Proof.
  induction h as [|y h IH]; intros k acc len c x i o d Hh Hx Hk Hlen;
    (destruct k as [|k]; [lia|]); cbn [numeric_loop].
  - destruct Hx as [Hs Ha]. destruct x as [cx [a|]]; cbn [ahead] in Ha.
    + destruct Ha as (b & _ & E). discriminate.
    + subst i. unfold bind at 1, peek, bind, get_px, tread, set_px, ret. cbn.
      destruct limit; eexists; reflexivity.
  - cbn [forallb length] in *. apply andb_prop in Hh as [Hy Hh].
    destruct (peek_next c x i y h o d Hx) as (x1 & i1 & E1 & R1).
    unfold bind at 1. rewrite E1. rewrite Hy.
    destruct (rd_next c x1 i1 y h o d R1) as (x2 & i2 & E2 & R2 & _).
    unfold bind at 1. rewrite E2. unfold bind at 1, check_length.
    destruct (len + 1 <? 0) eqn:E; [lia|]. destruct limit as [l|].
    + destruct (len + 1 >? l).
      * eexists. reflexivity.
      * cbn [ret]. eapply IH; [exact Hh|exact R2|lia|lia].
    + cbn [ret]. eapply IH; [exact Hh|exact R2|lia|lia].
Qed.

(** An integer in any position, cut before, inside or after its digits. *)
Lemma integer_cut limit h c x i o d : forallb numeric h = true ->
  j_rrep c x i (sep c ++ (if esc (j_nxt c) then [QUOTE] else []) ++ h) ->
  exists s', readJSONInteger limit (mkst x i o d) = (at_end limit, s').
Proof.
  intros Hh Hx. unfold readJSONInteger.
  destruct (RJ_ctx c _ I x i o d Hx) as (x1 & i1 & E1 & R1).
  unfold bind at 1. rewrite E1.
  assert (Q : exists x2 i2, readJSONQuotes (mkst x1 i1 o d) = (Ok tt, mkst x2 i2 o d)
              /\ j_rrep (j_nxt c) x2 i2 h).
  { unfold readJSONQuotes, escapeNum, get_stack, bind, get_px, ret. cbn [px].
    rewrite (proj1 R1). change (match top (j_nxt c) with CPair _ colon => colon
      | _ => false end) with (esc (j_nxt c)).
    destruct (esc (j_nxt c)).
    - destruct (RJ_syntax (j_nxt c) QUOTE h I x1 i1 o d R1) as (x2 & i2 & E2 & R2).
      exists x2, i2. auto.
    - exists x1, i1. split; [reflexivity|exact R1]. }
  destruct Q as (x2 & i2 & E2 & R2). unfold bind at 1. rewrite E2.
  unfold bind at 1, readJSONNumericChars. unfold bind at 1. cbn [inp].
  unfold bind at 1.
  assert (Hl : (length h < S (S (length i2)))%nat).
  { destruct R2 as [_ Ha]. destruct (ahead x2); [destruct Ha as (b & _ & ->)|subst h];
      cbn [length]; lia. }
  destruct (numeric_loop_cut limit h _ [] 0 _ x2 i2 o d Hh R2 Hl ltac:(lia)) as [s' E3].
  rewrite E3. exists s'. destruct limit; reflexivity.
Qed.

Definition int_ty (t : ty) : bool :=
  match t with TBool | TByte | TI16 | TI32 | TI64 => true | _ => false end.

Lemma int_cut_read limit h t k F rs c x i o d : int_ty t = true ->
  forallb numeric h = true ->
  j_rrep c x i (sep c ++ (if esc (j_nxt c) then [QUOTE] else []) ++ h) ->
  (exists s', read_ty (json limit) rs F t (mkst x i o d) = (at_end limit, s'))
  /\ (exists s', skip (json limit) F (S k) (code t) (mkst x i o d) = (at_end limit, s')).
Proof.
  intros Ht Hh Hx. destruct (integer_cut limit h c x i o d Hh Hx) as [s' E].
  destruct t; try discriminate Ht; cbn [read_ty read_base skip code];
    repeat match goal with |- context [if ?a =? ?b then _ else _] =>
      let v := eval vm_compute in (a =? b) in change (a =? b) with v; cbv iota end;
    cbn [json readBool readByte readI16 readI32 readI64];
    (split; exists s'; unfold j_readBool, bind; rewrite ?E; destruct limit; reflexivity).
Qed.

Lemma read_fields_first X (P : proto X) f sk rv ds acc :
  read_fields P (S f) sk rv ds acc =
  ('(ftype, fid) <- readFieldBegin P ;;
   if ftype =? T_STOP then ret acc
   else match find_field ds fid with
        | Some (i, d) =>
            if ftype =? code (f_ty d) then
              v <- rv (f_ty d) ;;
              readFieldEnd P ;;;
              read_fields P f sk rv ds (set_nth i (Some v) acc)
            else
              skip P sk SKIP_DEPTH ftype ;;;
              readFieldEnd P ;;;
              read_fields P f sk rv ds acc
        | None =>
            skip P sk SKIP_DEPTH ftype ;;;
            readFieldEnd P ;;;
            read_fields P f sk rv ds acc
        end).
Proof. reflexivity. Qed.

Lemma read_struct_first X (P : proto X) env k F n :
  read_struct P env (S k) F n =
  match nth_error env n with
  | None => raise EAttributeError
  | Some ds =>
      with_depth
        (readStructBegin P ;;;
         acc <- read_fields P F F (read_ty P (read_struct P env k F) F) ds (fresh ds) ;;
         readStructEnd P ;;;
         ret (VStruct n acc))
  end.
Proof. reflexivity. Qed.

(** A document cut in its first field, an integer. *)
Lemma struct_cut limit env n ds id t h : nth_error env n = Some ds ->
  -32768 <= id <= 32767 -> int_ty t = true -> forallb numeric h = true ->
  lim_ok limit 40 ->
  deserialize (json limit) j_init env n
    (x7b :: sj_num true (int_text id) ++ x3a :: x7b :: sj_string (sj_type t) ++ x3a :: h)
  = at_end limit.
Proof.
  intros Hn Hid Ht Hh Hl.
  assert (HL : j_limits limit 20 0).
  { unfold j_limits, lim_ok in *. destruct limit; lia. }
  set (doc := x7b :: _).
  assert (Ed : doc = je_sbeg [CBase] ++ je_fbeg [CPair true true; CBase] id (code t) None
                     ++ x3a :: h).
  { subst doc. rewrite <- tname_spec. unfold je_sbeg, je_fbeg. cbn [sep app].
    rewrite num_spec. norm. reflexivity. }
  unfold deserialize.
  assert (R0 : j_rrep [CBase] j_init doc doc) by (split; reflexivity).
  rewrite Ed in R0 at 2.
  destruct (RJ_obj [CBase] _ I j_init doc [] (0 + 1) R0) as (x1 & i1 & E1 & R1).
  assert (Hp : j_fpos [CBase] [CPair true true; CBase]).
  { exists (CPair true true). split; [left; reflexivity|reflexivity]. }
  destruct (jr_fbeg limit 20 0 HL [CPair true true; CBase] id t None [CBase] Hp
    ltac:(unfold between; lia) _ I x1 i1 [] (0 + 1) R1) as (x2 & i2 & E2 & R2).
  change DFUEL with (S 64). rewrite read_struct_first, Hn.
  unfold with_depth, increment_recursion_depth. unfold bind at 1. cbn [depth px inp out].
  change (0 + 1 >? DEFAULT_RECURSION_DEPTH) with false. cbv iota.
  unfold try_finally. unfold bind at 1.
  change (readStructBegin (json limit)) with readJSONObjectStart.
  rewrite E1. unfold bind at 1. clearbody doc.
  set (rs := read_struct (json limit) env 64 (S (length doc))).
  set (rv := read_ty (json limit) rs (S (length doc))).
  rewrite read_fields_first. unfold bind at 1.
  change (readFieldBegin (json limit)) with (j_readFieldBegin limit). rewrite E2.
  assert (Hs : code t =? T_STOP = false) by (destruct t; reflexivity || discriminate Ht).
  rewrite Hs.
  assert (C := fun k F rs => int_cut_read limit h t k F rs
    (j_inF [CPair true true; CBase] id None) x2 i2 [] (0 + 1) Ht Hh).
  assert (R3 : j_rrep (j_inF [CPair true true; CBase] id None) x2 i2
    (sep (j_inF [CPair true true; CBase] id None) ++
     (if esc (j_nxt (j_inF [CPair true true; CBase] id None)) then [QUOTE] else []) ++ h)).
  { exact R2. }
  destruct (find_field ds id) as [[j d]|].
  - destruct (code t =? code (f_ty d)) eqn:Ec.
    + assert (Hty : int_ty (f_ty d) = true).
      { apply Z.eqb_eq in Ec. destruct t; try discriminate Ht; destruct (f_ty d);
          try discriminate Ec; reflexivity. }
      unfold bind at 1.
      destruct (int_cut_read limit h (f_ty d) O (S (length doc))
        rs _ x2 i2 [] (0 + 1) Hty Hh R3) as [[s' E] _].
      unfold rv. rewrite E. destruct limit; reflexivity.
    + unfold bind at 1. destruct (C 63%nat (S (length doc)) (fun _ => diverge) R3)
        as [_ [s' E]]. change SKIP_DEPTH with 64%nat. rewrite E. destruct limit; reflexivity.
  - unfold bind at 1. destruct (C 63%nat (S (length doc)) (fun _ => diverge) R3)
      as [_ [s' E]]. change SKIP_DEPTH with 64%nat. rewrite E. destruct limit; reflexivity.
Qed.
