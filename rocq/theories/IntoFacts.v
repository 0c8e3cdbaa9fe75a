(** Facts about Into.v. *)
From Coq Require Import ZArith List Bool Lia.
From Coq Require Import Init.Byte.
From Coq Require Import ZifyBool ZifyNat ZifyN.
From Verif Require Import Base Bytes Utf8 Proto Into.
Import ListNotations.
Open Scope Z_scope.

(** * Reading in place and reading a new object *)

(** Outcome with what is left as its value. *)
Definition fin {A B} (g : A -> B) (o : outcome unit) (a : A) : outcome B :=
  match o with Ok _ => Ok (g a) | Raise e => Raise e | Diverge => Diverge end.

Definition agree {X A B} (u : upd X A) (g : A -> B) (a : A) (m : M X B) : Prop :=
  forall s, m s = let '(o, a', s') := u a s in (fin g o a', s').

Lemma loop_agree {X A} fuel : forall n (f : A -> M X A) a,
  agree (loop fuel n f) (fun b => b) a (repeatM fuel n f a).
Proof.
  induction fuel as [|k IH]; intros n f a s; cbn [loop repeatM];
    destruct (n <=? 0); try reflexivity.
  unfold thn, assign, ask, bind. destruct (f a s) as [[b|e|] s1]; try reflexivity.
  apply IH.
Qed.

Section Facts.
Context {X : Type}.
Variable P : proto X.
Variable env : schema.
Variable imm : nat -> bool.

Definition attr_agree (u : upd X (option value)) (m : M X value) : Prop :=
  forall old s, let '(o, v, s') := u old s in
    match o with
    | Ok _ => exists x, v = Some x /\ m s = (Ok x, s')
    | Raise e => m s = (Raise e, s')
    | Diverge => m s = (Diverge, s')
    end.

Lemma assign_agree (m : M X value) : attr_agree (assign Some m) m.
Proof.
  intros old s. unfold assign, ask. destruct (m s) as [[x|e|] s1] eqn:E;
    try reflexivity. exists x. auto.
Qed.

Lemma within_agree {A} a (g : A -> value) u m : agree u g a m ->
  attr_agree (within a g u) m.
Proof.
  intros H old s. unfold within. rewrite (H s).
  destruct (u a s) as [[[[]|e|] a'] s']; cbn [fin]; eauto.
Qed.

Lemma thn_call_agree {A B C} (u : upd X A) (m : M X A) (g : A -> B) a (e : M X C) :
  agree u (fun b => b) a m ->
  agree (thn u (call e)) g a (l <- m ;; e ;;; ret (g l)).
Proof.
  intros H s. unfold thn, call, ask, bind. rewrite (H s).
  destruct (u a s) as [[[[]|x|] a'] s']; cbn [fin]; try reflexivity.
  destruct (e s') as [[?|?|] ?]; reflexivity.
Qed.

Lemma into_attr_agree rs ri fuel t :
  (forall n ds, nth_error env n = Some ds -> agree (ri n) (VStruct n) (fresh ds) (rs n)) ->
  attr_agree (into_attr P env imm rs ri fuel t) (read_ty P rs fuel t).
Proof.
  intros H. destruct t; cbn [into_attr read_ty]; try apply assign_agree.
  - apply within_agree. intros s. unfold ask, bind at 1.
    destruct (readListBegin P s) as [[[et n]|e|] s1]; try reflexivity.
    apply thn_call_agree, loop_agree.
  - apply within_agree. intros s. unfold ask, bind at 1.
    destruct (readSetBegin P s) as [[[et n]|e|] s1]; try reflexivity.
    apply thn_call_agree, loop_agree.
  - apply within_agree. intros s. unfold ask, bind at 1.
    destruct (readMapBegin P s) as [[[[kt vt] n]|e|] s1]; try reflexivity.
    apply thn_call_agree, loop_agree.
  - destruct (nth_error env n) as [ds|] eqn:E; [|apply assign_agree].
    destruct (imm n); [apply assign_agree|]. apply within_agree, H, E.
Qed.

Lemma into_fields_agree fuel : forall K rv rv' ds acc,
  (forall t, attr_agree (rv t) (rv' t)) ->
  agree (into_fields P fuel K rv ds) (fun a => a) acc (read_fields P fuel K rv' ds acc).
Proof.
  induction fuel as [|f IH]; intros K rv rv' ds acc H s; [reflexivity|].
  cbn [into_fields read_fields]. unfold ask, bind at 1.
  destruct (readFieldBegin P s) as [[[t id]|e|] s1]; try reflexivity.
  assert (S1 : agree (thn (call (skip P K SKIP_DEPTH t))
                 (thn (call (readFieldEnd P)) (into_fields P f K rv ds)))
                 (fun a => a) acc
                 (skip P K SKIP_DEPTH t ;;; readFieldEnd P ;;;
                  read_fields P f K rv' ds acc)).
  { intros s2. unfold thn, call, ask, bind.
    destruct (skip P K SKIP_DEPTH t s2) as [[?|e|] s3]; try reflexivity.
    cbn beta iota delta [done].
    destruct (readFieldEnd P s3) as [[?|e|] s4]; try reflexivity. apply IH, H. }
  destruct (t =? T_STOP); [reflexivity|].
  destruct (find_field ds id) as [[i d]|]; [|apply S1].
  destruct (t =? code (f_ty d)); [|apply S1]. clear S1.
  unfold thn at 1, attr, bind. pose proof (H (f_ty d) (nth i acc None) s1) as Hv.
  destruct (rv (f_ty d) (nth i acc None) s1) as [[[[]|e|] v] s2].
  - destruct Hv as (x & -> & ->). unfold thn, call, ask.
    destruct (readFieldEnd P s2) as [[?|e|] s3]; try reflexivity. apply IH, H.
  - rewrite Hv. reflexivity.
  - rewrite Hv. reflexivity.
Qed.

(** [obj.read] on an object with the given attributes, described by Proto.v's
    loop over fields. *)
Lemma into_struct_read k F n ds base :
  nth_error env n = Some ds ->
  (forall m dm, nth_error env m = Some dm ->
     agree (into_struct P env imm k F m) (VStruct m) (fresh dm) (read_struct P env k F m)) ->
  agree (into_struct P env imm (S k) F n) (VStruct n) base
    (with_depth (readStructBegin P ;;;
       acc <- read_fields P F F (read_ty P (read_struct P env k F) F) ds base ;;
       readStructEnd P ;;; ret (VStruct n acc))).
Proof.
  intros E H s. cbn [into_struct]. rewrite E.
  unfold framed, with_depth, thn at 1, call at 1, ask at 1, bind at 1, try_finally.
  destruct (increment_recursion_depth s) as [[[]|e|] s1]; try reflexivity.
  cbn beta iota delta [done].
  unfold thn at 1, call at 1, ask at 1, bind at 1.
  destruct (readStructBegin P s1) as [[[]|e|] s2]; try reflexivity.
  cbn beta iota delta [done].
  rewrite (thn_call_agree _ _ (VStruct n) base (readStructEnd P)
    (into_fields_agree F F (into_attr P env imm (read_struct P env k F)
       (into_struct P env imm k F) F) (read_ty P (read_struct P env k F) F) ds base
       (fun t => into_attr_agree _ _ F t H)) s2).
  destruct (thn _ _ base s2) as [[[[]|e|] a] s3]; reflexivity.
Qed.

Lemma into_struct_fresh k : forall F n ds, nth_error env n = Some ds ->
  agree (into_struct P env imm k F n) (VStruct n) (fresh ds) (read_struct P env k F n).
Proof.
  induction k as [|k IH]; intros F n ds E; [intros s; reflexivity|].
  cbn [read_struct]. rewrite E. apply into_struct_read; [exact E|].
  intros m dm Em. apply IH, Em.
Qed.

(** * What is touched does not depend on what was there *)

Fixpoint overlay (p base : list (option value)) : list (option value) :=
  match p, base with
  | Some v :: p', _ :: b' => Some v :: overlay p' b'
  | None :: p', b :: b' => b :: overlay p' b'
  | _, _ => base
  end.

Lemma overlay_none base : overlay (repeat None (length base)) base = base.
Proof. induction base; cbn [length repeat overlay]; congruence. Qed.

Lemma overlay_length p : forall b, length (overlay p b) = length b.
Proof.
  induction p as [|[v|] p IH]; intros [|x b]; cbn [overlay length]; auto.
Qed.

Lemma overlay_overlay p : forall q b, length p = length q ->
  overlay p (overlay q b) = overlay (overlay p q) b.
Proof.
  induction p as [|[v|] p IH]; intros [|[w|] q] [|x b] H; try discriminate;
    cbn [overlay]; try reflexivity; f_equal; apply IH; cbn in H; lia.
Qed.

Lemma set_nth_overlay v n : forall i (b : list (option value)), length b = n ->
  overlay (set_nth i (Some v) (repeat None n)) b = set_nth i (Some v) b.
Proof.
  induction n as [|n IH]; intros [|i] [|x b] H; try discriminate;
    cbn [repeat set_nth overlay]; try reflexivity; injection H as H.
  - f_equal. subst n. apply overlay_none.
  - f_equal. apply IH, H.
Qed.

Lemma set_nth_same i : forall l : list (option value), set_nth i (nth i l None) l = l.
Proof.
  induction i; intros [|x l]; cbn [set_nth nth]; try reflexivity. f_equal. apply IHi.
Qed.

(** One outcome, one final state and one patch for all objects. *)
Definition uniform (n : nat) (u : upd X (list (option value))) : Prop :=
  forall s, exists o p s', length p = n /\
    forall b, length b = n -> u b s = (o, overlay p b, s').

Definition uniform1 (u : upd X (option value)) : Prop :=
  forall s, exists o v s', forall old,
    u old s = (o, match v with Some _ => v | None => old end, s').

Lemma uniform_const n o s' (u : list (option value) -> outcome unit * list (option value) * st X) :
  (forall b, u b = (o, b, s')) ->
  exists o p s', length p = n /\ forall b, length b = n -> u b = (o, overlay p b, s').
Proof.
  intros H. exists o, (repeat None n), s'. split; [apply repeat_length|].
  intros b <-. rewrite H, overlay_none. reflexivity.
Qed.

Lemma uniform_call {B} n (m : M X B) : uniform n (call m).
Proof.
  intros s. unfold call, ask, done. destruct (m s) as [[x|e|] s1];
    eapply uniform_const; intros; reflexivity.
Qed.

Lemma uniform_thn n u w : uniform n u -> uniform n w -> uniform n (thn u w).
Proof.
  intros Hu Hw s. destruct (Hu s) as (o & p & s1 & Hp & H1).
  destruct o as [[]|e|].
  - destruct (Hw s1) as (o2 & q & s2 & Hq & H2).
    exists o2, (overlay q p), s2. rewrite overlay_length. split; [exact Hp|].
    intros b Hb. unfold thn. rewrite H1 by exact Hb.
    rewrite H2 by (rewrite overlay_length; exact Hb).
    rewrite overlay_overlay by congruence. reflexivity.
  - exists (Raise e), p, s1. split; [exact Hp|]. intros b Hb. unfold thn.
    rewrite H1 by exact Hb. reflexivity.
  - exists Diverge, p, s1. split; [exact Hp|]. intros b Hb. unfold thn.
    rewrite H1 by exact Hb. reflexivity.
Qed.

Lemma uniform_ask {B} n (m : M X B) k :
  (forall b, uniform n (k b)) -> uniform n (ask m k).
Proof.
  intros H s. unfold ask. destruct (m s) as [[x|e|] s1].
  - apply H.
  - eapply uniform_const; intros; reflexivity.
  - eapply uniform_const; intros; reflexivity.
Qed.

Lemma uniform_attr n i u : uniform1 u -> uniform n (attr i u).
Proof.
  intros H s. destruct (H s) as (o & v & s' & Hv). destruct v as [v|].
  - exists o, (set_nth i (Some v) (repeat None n)), s'. split.
    { clear. revert i. induction n; intros [|i]; cbn [repeat set_nth length]; auto.
      f_equal. apply repeat_length. }
    intros b Hb. unfold attr. rewrite Hv.
    rewrite set_nth_overlay by exact Hb. reflexivity.
  - eapply uniform_const. intros b. unfold attr. rewrite Hv, set_nth_same. reflexivity.
Qed.

Lemma uniform1_assign (m : M X value) : uniform1 (assign Some m).
Proof.
  intros s. unfold assign, ask. destruct (m s) as [[x|e|] s1].
  - exists (Ok tt), (Some x), s1. reflexivity.
  - exists (Raise e), None, s1. reflexivity.
  - exists Diverge, None, s1. reflexivity.
Qed.

Lemma uniform1_within {A} a (g : A -> value) u : uniform1 (within a g u).
Proof.
  intros s. unfold within. destruct (u a s) as [[o a'] s'].
  exists o, (Some (g a')), s'. reflexivity.
Qed.

Lemma into_attr_uniform rs ri fuel t : uniform1 (into_attr P env imm rs ri fuel t).
Proof.
  destruct t; cbn [into_attr]; try apply uniform1_assign; try apply uniform1_within.
  destruct (nth_error env n); [|apply uniform1_assign].
  destruct (imm n); [apply uniform1_assign|apply uniform1_within].
Qed.

Lemma into_fields_uniform n fuel : forall K rv ds, (forall t, uniform1 (rv t)) ->
  uniform n (into_fields P fuel K rv ds).
Proof.
  induction fuel as [|f IH]; intros K rv ds H.
  - intros s. eapply uniform_const. reflexivity.
  - cbn [into_fields]. apply uniform_ask. intros [t id].
    destruct (t =? T_STOP). { intros s. eapply uniform_const. reflexivity. }
    assert (N : uniform n (thn (call (readFieldEnd P)) (into_fields P f K rv ds)))
      by (apply uniform_thn; [apply uniform_call|apply IH, H]).
    destruct (find_field ds id) as [[i d]|];
      [destruct (t =? code (f_ty d))|]; apply uniform_thn; try exact N;
      try apply uniform_call. apply uniform_attr, H.
Qed.

Lemma uniform_framed n u : uniform n u -> uniform n (framed u).
Proof.
  intros H. apply uniform_thn; [apply uniform_call|].
  intros s. destruct (H s) as (o & p & s' & Hp & Hu).
  exists o, p, (decrement_recursion_depth s'). split; [exact Hp|].
  intros b Hb. rewrite Hu by exact Hb. reflexivity.
Qed.

Lemma into_struct_uniform k F m n : uniform n (into_struct P env imm k F m).
Proof.
  destruct k as [|k]; [intros s; eapply uniform_const; reflexivity|].
  cbn [into_struct]. destruct (nth_error env m) as [ds|];
    [|intros s; eapply uniform_const; reflexivity].
  apply uniform_framed, uniform_thn; [apply uniform_call|].
  apply uniform_thn; [|apply uniform_call].
  apply into_fields_uniform. intros t. apply into_attr_uniform.
Qed.

End Facts.
