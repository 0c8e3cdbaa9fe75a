(** Consequences for whole reads: termination, fuel independence, longer and
    shorter inputs, the depth counter. *)
From Coq Require Import ZArith List Bool Lia ZifyBool.
From Coq Require Import Init.Byte.
From Verif Require Import Base Bytes Utf8 Proto Spec Closure FrameFacts TermFacts
  Binary BinaryLaws SpecBinary Compact CompactLaws SpecCompact StructFacts InstFacts.
Import ListNotations.
Open Scope Z_scope.

(** More fuel gives the same result, once there is a result. *)
Definition mono {X} (A : Type) (m m' : M X A) : Prop :=
  forall s, fst (m s) <> Diverge -> m' s = m s.

Lemma mono_closed X : rclosed (@mono X).
Proof.
  constructor; unfold mono.
  - reflexivity.
  - reflexivity.
  - intros A m s H. exfalso. apply H. reflexivity.
  - intros A B m m' k k' Hm Hk s. unfold bind.
    specialize (Hm s). destruct (m s) as [[a|e|] s1]; cbn [fst] in *.
    + intros H. rewrite Hm by discriminate. apply Hk, H.
    + intros _. rewrite Hm by discriminate. reflexivity.
    + intros H. exfalso. apply H. reflexivity.
  - intros A m m' Hm s. unfold with_depth, increment_recursion_depth, bind, try_finally.
    destruct (_ >? _); [reflexivity|].
    match goal with |- context [m ?s1] => specialize (Hm s1);
      destruct (m s1) as [r s2] eqn:E end.
    cbn [fst] in *. intros H. rewrite Hm by assumption. reflexivity.
Qed.

Lemma mono_refl X (P : proto X) : rreads (@mono X) P.
Proof. constructor; intros s _; reflexivity. Qed.

Section Gen.
Context {X : Type} {mu : X -> nat} {dv : X -> list byte -> Prop} {P : proto X}.
Variable T : term mu dv P.
Hypothesis ND : forall x i, ~ dv x i.
Hypothesis ST : rreads (@stable X) P.
Variable env : schema.

Lemma read_no_diverge F k n x i o d : (mu x + length i < F)%nat -> 0 <= d <= 64 ->
  65 <= d + Z.of_nat k ->
  fst (read_struct P env k F n (mkst x i o d)) <> Diverge.
Proof.
  intros Hl Hd Hk. pose proof (read_struct_runs _ _ T F env k d n Hd Hk) as [H _].
  specialize (H (mkst x i o d) I Hl eq_refl).
  destruct (read_struct P env k F n _) as [[a|e|] s']; cbn [fst]; try discriminate.
  exfalso; eapply ND; exact H.
Qed.

Lemma read_terminates n x i o d : 0 <= d <= 64 -> exists r s',
  r <> Diverge /\ forall F k, (mu x + length i < F)%nat -> 65 <= d + Z.of_nat k ->
    read_struct P env k F n (mkst x i o d) = (r, s').
Proof.
  intros Hd.
  pose proof (read_no_diverge (S (mu x + length i)) 65 n x i o d ltac:(lia) Hd ltac:(lia)) as H.
  destruct (read_struct P env 65 (S (mu x + length i)) n (mkst x i o d)) as [r s'] eqn:E.
  exists r, s'. split; [exact H|]. intros F k HF Hk.
  destruct (Nat.le_ge_cases k 65) as [L|G].
  - pose proof (read_no_diverge (S (mu x + length i)) k n x i o d ltac:(lia) Hd Hk) as H'.
    rewrite (read_struct_rel mono (mono_closed X) P (mono_refl X P) env k k
      (S (mu x + length i)) F n ltac:(lia) ltac:(lia) _ H').
    rewrite <- E.
    symmetry. apply (read_struct_rel mono (mono_closed X) P (mono_refl X P) env k 65
      (S (mu x + length i)) (S (mu x + length i)) n ltac:(lia) ltac:(lia) _ H').
  - rewrite (read_struct_rel mono (mono_closed X) P (mono_refl X P) env 65 k
      (S (mu x + length i)) F n ltac:(lia) ltac:(lia)); [exact E|].
    rewrite E. exact H.
Qed.

Lemma deserialize_terminates n x buf : mu x = O -> deserialize P x env n buf <> Diverge.
Proof.
  intros Hx. unfold deserialize.
  pose proof (read_no_diverge (S (length buf)) DFUEL n x buf [] 0 ltac:(lia)
    ltac:(lia) ltac:(unfold DFUEL; lia)) as H.
  destruct (read_struct P env DFUEL _ n _) as [[a|e|] s']; try discriminate.
  exfalso. apply H. reflexivity.
Qed.

Lemma skip_no_diverge F k t x i o d : (mu x + length i < F)%nat ->
  fst (skip P F k t (mkst x i o d)) <> Diverge.
Proof.
  intros Hl. pose proof (skip_runs _ _ T F d k t) as [H _].
  specialize (H (mkst x i o d) I Hl eq_refl).
  destruct (skip P F k t _) as [[a|e|] s']; cbn [fst]; try discriminate.
  exfalso; eapply ND; exact H.
Qed.

Lemma skip_terminates k t x i o d : exists r s',
  r <> Diverge /\ forall F, (mu x + length i < F)%nat ->
    skip P F k t (mkst x i o d) = (r, s').
Proof.
  pose proof (skip_no_diverge (S (mu x + length i)) k t x i o d ltac:(lia)) as H.
  destruct (skip P (S (mu x + length i)) k t (mkst x i o d)) as [r s'] eqn:E.
  exists r, s'. split; [exact H|]. intros F HF. rewrite <- E.
  apply (skip_rel mono (mono_closed X) P (mono_refl X P) (S (mu x + length i)) F k
    ltac:(lia) t). rewrite E. exact H.
Qed.

(** Reading a longer input. *)
Lemma deserialize_app n x buf v rest e : deserialize P x env n buf = Ok (v, rest) ->
  deserialize P x env n (buf ++ e) = Ok (v, rest ++ e).
Proof.
  unfold deserialize.
  destruct (read_struct P env DFUEL (S (length buf)) n (mkst x buf [] 0))
    as [[a|er|] [x' i' o' d']] eqn:E; try discriminate.
  intros H. assert (a = v /\ i' = rest) as [-> ->] by (cbn in H; split; congruence).
  pose proof (read_struct_rel stable (stable_closed X) P ST env DFUEL DFUEL
    (S (length buf)) (S (length (buf ++ e))) n ltac:(lia)
    ltac:(rewrite app_length; lia)) as HS.
  rewrite (HS _ _ _ _ _ _ _ _ _ e E). reflexivity.
Qed.

(** Reading a shorter one. *)
Lemma deserialize_prefix n x p q v : mu x = O -> deserialize P x env n (p ++ q) = Ok (v, []) ->
  q <> [] -> exists e, deserialize P x env n p = Raise e.
Proof.
  intros Hx H Hq. destruct (deserialize P x env n p) as [[w rest]|e|] eqn:E.
  - apply deserialize_app with (e := q) in E.
    assert (rest ++ q = []) by congruence. destruct rest; [|discriminate].
    contradiction.
  - exists e; reflexivity.
  - exfalso. revert E. apply deserialize_terminates, Hx.
Qed.

End Gen.

(** Unread bytes are the end of the input: nothing is invented. *)
Lemma deserialize_suffix X (P : proto X) : rreads (@reads X) P ->
  forall env n x buf v rest, deserialize P x env n buf = Ok (v, rest) ->
  exists pre, buf = pre ++ rest.
Proof.
  intros HR env n x buf v rest. unfold deserialize.
  pose proof (read_struct_rel reads (reads_closed X) P HR env DFUEL DFUEL
    (S (length buf)) (S (length buf)) n ltac:(lia) ltac:(lia) (mkst x buf [] 0)) as H.
  destruct (read_struct P env DFUEL _ n _) as [[a|e|] s']; try discriminate.
  cbn in H. destruct H as (_ & _ & H). intros E.
  assert (inp s' = rest) by congruence. subst rest. exact H.
Qed.

(** * Depth *)

Lemma depth_restored_read X (P : proto X) : rreads (@reads X) P ->
  forall env k F n s, depth (snd (read_struct P env k F n s)) = depth s.
Proof.
  intros HR env k F n s.
  apply (read_struct_rel reads (reads_closed X) P HR env k k F F n
    ltac:(lia) ltac:(lia) s).
Qed.

Lemma depth_restored_write X (P : proto X) : rwrites (@writes X) P ->
  forall env t v s, depth (snd (write_value P env t v s)) = depth s.
Proof.
  intros HR env t v s.
  apply (write_value_rel writes (writes_closed X) P HR env v t s).
Qed.

Lemma depth_full_read X (P : proto X) env k F n ds s : nth_error env n = Some ds ->
  64 <= depth s ->
  read_struct P env (S k) F n s = (Raise (EProtocol TP_DEPTH_LIMIT), s).
Proof.
  intros Hn Hd. cbn [read_struct]. rewrite Hn.
  unfold with_depth, increment_recursion_depth, bind, DEFAULT_RECURSION_DEPTH.
  destruct (depth s + 1 >? 64) eqn:E; [|lia].
  destruct s; cbn. do 2 f_equal. lia.
Qed.

Lemma depth_full_write X (P : proto X) env n m fs ds s : nth_error env m = Some ds ->
  validate ds fs = true -> 64 <= depth s ->
  write_struct P env n (VStruct m fs) s = (Raise (EProtocol TP_DEPTH_LIMIT), s).
Proof.
  intros Hn Hv Hd. unfold write_struct. cbn [write_value]. rewrite Hn, Hv.
  unfold with_depth, increment_recursion_depth, bind, DEFAULT_RECURSION_DEPTH.
  destruct (depth s + 1 >? 64) eqn:E; [|lia].
  destruct s; cbn. do 2 f_equal. lia.
Qed.
