(** Reading terminates: with more fuel than input bytes no loop runs out. *)
From Coq Require Import ZArith List Bool Lia ZifyBool.
From Coq Require Import Init.Byte.
From Verif Require Import Base Bytes Utf8 Proto Closure Binary Compact FrameFacts.
Import ListNotations.
Open Scope Z_scope.

(** The size of what is left: the input and what the protocol object has read
    ahead ([mu]).  [dv] describes the states in which a loop may go on for ever;
    for most protocols there are none. *)
Section Size.
Context {X : Type} (mu : X -> nat) (dv : X -> list byte -> Prop).

Definition sz (s : st X) : nat := (mu (px s) + length (inp s))%nat.

(** [runs F d I k Q m]: started at depth [d] with fewer than [F] bytes of input
    and an object state satisfying [I], [m] does not diverge; on success it
    has used at least [k] bytes, the depth is [d] again and the object states
    before and after satisfy [Q]. *)
Definition runs {A} (F : nat) (d : Z) (I : X -> Prop) (k : nat)
    (Q : X -> A -> X -> Prop) (m : M X A) : Prop :=
  forall s, I (px s) -> (sz s < F)%nat -> depth s = d ->
    match m s with
    | (Ok a, s') => Q (px s) a (px s') /\ (sz s' + k <= sz s)%nat
                    /\ depth s' = d
    | (Raise _, _) => True
    | (Diverge, s') => dv (px s') (inp s')
    end.

Lemma runs_ret A F d (I : X -> Prop) (a : A) :
  runs F d I 0 (fun x b x' => b = a /\ x' = x) (ret a).
Proof. intros s Hi Hl Hd. cbn. repeat split; auto. lia. Qed.

Lemma runs_raise A F d (I : X -> Prop) k Q e : @runs A F d I k Q (raise e).
Proof. intros s _ _ _. exact Logic.I. Qed.

Lemma runs_weak A F d (I I' : X -> Prop) k k' (Q Q' : X -> A -> X -> Prop) m :
  runs F d I k Q m -> (forall x, I' x -> I x) -> (k' <= k)%nat ->
  (forall x a x', I' x -> Q x a x' -> Q' x a x') -> runs F d I' k' Q' m.
Proof.
  intros H Hi Hk Hq s Hs Hl Hd. specialize (H s (Hi _ Hs) Hl Hd).
  destruct (m s) as [[a| |] s']; auto. destruct H as (H1 & H2 & H3).
  repeat split; auto. lia.
Qed.

Lemma runs_bind A B F d (I : X -> Prop) k1 k2 (Q1 : X -> A -> X -> Prop)
    (Q2 : X -> B -> X -> Prop) (m : M X A) (f : A -> M X B) :
  runs F d I k1 Q1 m ->
  (forall x a, I x ->
     runs F d (fun y => Q1 x a y) k2 (fun y b z => Q2 x b z) (f a)) ->
  runs F d I (k1 + k2) Q2 (bind m f).
Proof.
  intros Hm Hf s Hi Hl Hd. unfold bind. specialize (Hm s Hi Hl Hd).
  destruct (m s) as [[a| |] s1]; auto. destruct Hm as (H1 & H2 & H3).
  specialize (Hf (px s) a Hi s1 H1 ltac:(lia) H3).
  destruct (f a s1) as [[b| |] s2]; auto. destruct Hf as (K1 & K2 & K3).
  repeat split; auto. lia.
Qed.

Lemma runs_case A F d (I : X -> Prop) k (Q : X -> A -> X -> Prop) (b : bool) m1 m2 :
  runs F d I k Q m1 -> runs F d I k Q m2 ->
  runs F d I k Q (if b then m1 else m2).
Proof. destruct b; auto. Qed.

(** A loop whose body uses a byte. *)
Lemma runs_repeat A F d (J : X -> Prop) (f : A -> M X A) :
  (forall a, runs F d J 1 (fun x _ x' => J x') (f a)) ->
  forall fuel n acc, forall s, J (px s) -> (sz s < F)%nat -> depth s = d ->
    (sz s < fuel)%nat ->
    match repeatM fuel n f acc s with
    | (Ok a, s') => J (px s') /\ (sz s' <= sz s)%nat /\ depth s' = d
    | (Raise _, _) => True
    | (Diverge, s') => dv (px s') (inp s')
    end.
Proof.
  intros Hf. induction fuel as [|fuel IH]; intros n acc s Hj Hl Hd Hu; [lia|].
  cbn [repeatM]. destruct (n <=? 0).
  - cbn. repeat split; auto.
  - unfold bind. specialize (Hf acc s Hj Hl Hd).
    destruct (f acc s) as [[a| |] s1]; auto. destruct Hf as (H1 & H2 & H3).
    specialize (IH (n - 1) a s1 H1 ltac:(lia) H3 ltac:(lia)).
    destruct (repeatM fuel (n - 1) f a s1) as [[b| |] s2]; auto.
    destruct IH as (K1 & K2 & K3). repeat split; auto. lia.
Qed.

Lemma runs_repeatM A F d (J : X -> Prop) (f : A -> M X A) n acc :
  (forall a, runs F d J 1 (fun x _ x' => J x') (f a)) ->
  runs F d J 0 (fun x _ x' => J x') (repeatM F n f acc).
Proof.
  intros Hf s Hj Hl Hd. pose proof (runs_repeat A F d J f Hf F n acc s Hj Hl Hd Hl) as H.
  destruct (repeatM F n f acc s) as [[a| |] s']; auto.
  destruct H as (H1 & H2 & H3). repeat split; auto. lia.
Qed.

(** What a protocol has to guarantee.  [E] relates object states at the same
    position, [elem] holds inside a container, [Fp x] after starting to read a
    struct at [x], [Vp x] at a field value of that struct, [Lp x] inside a
    container started at [x].  [ks] bytes are used by the start of a struct,
    [kt] by the end of its fields. *)
Record term (P : proto X) := {
  ks : nat;
  kt : nat;
  kst : (1 <= ks + kt)%nat;
  E : X -> X -> Prop;
  elem : X -> Prop;
  Fp : X -> X -> Prop;
  Sp : X -> X -> Prop;
  Vp : X -> X -> Prop;
  Lp : X -> X -> Prop;
  E_refl : forall x, E x x;
  E_trans : forall x y z, E x y -> E y z -> E x z;
  E_elem : forall x x', E x x' -> elem x -> elem x';
  E_Vp : forall x y z, Vp x y -> E y z -> Vp x z;
  E_Lp : forall x y z, Lp x y -> E y z -> Lp x z;
  Lp_elem : forall x y, Lp x y -> elem y;
  tm_base : forall t F d, match t with TList _ | TSet _ | TMap _ _ | TStruct _ => False
                          | _ => True end ->
     runs F d (fun _ => True) 0 (fun x _ x' => E x x') (read_base P t)
     /\ runs F d elem 1 (fun x _ x' => E x x') (read_base P t);
  tm_sbeg : forall F d, runs F d (fun _ => True) ks (fun x _ x' => Fp x x')
                          (readStructBegin P);
  tm_fbeg : forall F d x s, Fp x (px s) -> (sz s < F)%nat -> depth s = d ->
    match readFieldBegin P s with
    | (Ok r, s') =>
        (if fst r =? T_STOP then Sp x (px s') /\ (sz s' + kt <= sz s)%nat
         else Vp x (px s') /\ (sz s' + 1 <= sz s)%nat) /\ depth s' = d
    | (Raise _, _) => True
    | (Diverge, s') => dv (px s') (inp s')
    end;
  tm_fend : forall F d x, runs F d (Vp x) 0 (fun _ _ x' => Fp x x') (readFieldEnd P);
  tm_send : forall F d x, runs F d (Sp x) 0 (fun _ _ x' => E x x') (readStructEnd P);
  tm_lbeg : forall F d, runs F d (fun _ => True) 1 (fun x _ x' => Lp x x')
                          (readListBegin P);
  tm_lend : forall F d x, runs F d (Lp x) 0 (fun _ _ x' => E x x') (readListEnd P);
  tm_tbeg : forall F d, runs F d (fun _ => True) 1 (fun x _ x' => Lp x x')
                          (readSetBegin P);
  tm_tend : forall F d x, runs F d (Lp x) 0 (fun _ _ x' => E x x') (readSetEnd P);
  tm_mbeg : forall F d, runs F d (fun _ => True) 1 (fun x _ x' => Lp x x')
                          (readMapBegin P);
  tm_mend : forall F d x, runs F d (Lp x) 0 (fun _ _ x' => E x x') (readMapEnd P) }.

Arguments ks {P} _.
Arguments kt {P} _.
Arguments kst {P} _.
Arguments E {P} _.
Arguments elem {P} _.
Arguments Fp {P} _.
Arguments Sp {P} _.
Arguments Vp {P} _.
Arguments Lp {P} _.
Arguments E_refl {P} _.
Arguments E_trans {P} _.
Arguments E_elem {P} _.
Arguments E_Vp {P} _.
Arguments E_Lp {P} _.
Arguments Lp_elem {P} _.
Arguments tm_base {P} _.
Arguments tm_sbeg {P} _.
Arguments tm_fbeg {P} _.
Arguments tm_fend {P} _.
Arguments tm_send {P} _.
Arguments tm_lbeg {P} _.
Arguments tm_lend {P} _.
Arguments tm_tbeg {P} _.
Arguments tm_tend {P} _.
Arguments tm_mbeg {P} _.
Arguments tm_mend {P} _.

Section Term.
Context {P : proto X} (T : term P).
Variable F : nat.

(** A value reader: fine anywhere, and uses a byte inside a container. *)
Definition vok {A} (d : Z) (m : M X A) : Prop :=
  runs F d (fun _ => True) 0 (fun x _ x' => E T x x') m
  /\ runs F d (elem T) 1 (fun x _ x' => E T x x') m.

Lemma vok_1 {A} d (m : M X A) :
  runs F d (fun _ => True) 1 (fun x _ x' => E T x x') m -> vok d m.
Proof.
  intros H. split; (eapply runs_weak; [exact H|cbn; auto|lia|cbn; auto]).
Qed.

Lemma vok_k {A} d k (m : M X A) : (1 <= k)%nat ->
  runs F d (fun _ => True) k (fun x _ x' => E T x x') m -> vok d m.
Proof.
  intros Hk H. apply vok_1. eapply runs_weak; [exact H|cbn; auto|exact Hk|cbn; auto].
Qed.

Lemma vok_drop {A} d (m : M X A) : vok d m -> vok d (m ;;; ret tt).
Proof.
  intros [H1 H2].
  split.
  - change O with (0 + 0)%nat. eapply runs_bind; [exact H1|]. cbn. intros x a _.
    eapply runs_weak; [apply (runs_ret _ F d (fun _ => True))|cbn; auto|lia|].
    cbn. intros y b z Hy [_ ->]. exact Hy.
  - change 1%nat with (1 + 0)%nat. eapply runs_bind; [exact H2|]. cbn. intros x a _.
    eapply runs_weak; [apply (runs_ret _ F d (fun _ => True))|cbn; auto|lia|].
    cbn. intros y b z Hy [_ ->]. exact Hy.
Qed.

Lemma vok_map {A B} d (m : M X A) (f : A -> B) : vok d (v <- m ;; ret (f v)) -> vok d m.
Proof.
  assert (G : forall I k, runs F d I k (fun x _ x' => E T x x') (v <- m ;; ret (f v)) ->
              runs F d I k (fun x _ x' => E T x x') m).
  { intros I k H s Hi Hl Hd. specialize (H s Hi Hl Hd). unfold bind in H.
    destruct (m s) as [[a| |] s1]; auto. }
  intros [H1 H2]. split; apply G; assumption.
Qed.

(** After the header of a container, a loop over its elements and its end. *)
Lemma container {A B} d (f : A -> M X A) n acc (me : M X unit) (k : A -> B) x0 :
  (forall a, runs F d (elem T) 1 (fun x _ x' => E T x x') (f a)) ->
  runs F d (Lp T x0) 0 (fun _ _ x' => E T x0 x') me ->
  runs F d (Lp T x0) 0 (fun _ _ x' => E T x0 x')
    (l <- repeatM F n f acc ;; me ;;; ret (k l)).
Proof.
  intros Hf He. change O with (0 + (0 + 0))%nat.
  eapply runs_bind with (Q1 := fun _ _ x' => Lp T x0 x').
  - apply runs_repeatM with (J := Lp T x0). intros a.
    eapply runs_weak; [apply Hf|cbn; apply Lp_elem|lia|].
    cbn. intros y b z Hy Hz. eapply E_Lp; eassumption.
  - intros x a _. eapply runs_bind with (Q1 := fun _ _ x' => E T x0 x').
    + eapply runs_weak; [exact He|cbn; auto|lia|cbn; auto].
    + intros y b _. eapply runs_weak;
        [apply (runs_ret _ F d (fun _ => True))|cbn; auto|lia|].
      cbn. intros z c w Hz [_ ->]. exact Hz.
Qed.

Lemma seq_ret (f : M X unit) (g : M X unit) s :
  (f ;;; g) s = (l <- f ;; g ;;; ret tt) s.
Proof.
  unfold bind. destruct (f s) as [[[]| |] s1]; auto.
  destruct (g s1) as [[[]| |] s2]; reflexivity.
Qed.

Lemma runs_ext {A} d I k (Q : X -> A -> X -> Prop) m m' :
  (forall s, m s = m' s) -> runs F d I k Q m' -> runs F d I k Q m.
Proof. intros Hm H s Hi Hl Hd. rewrite Hm. apply H; assumption. Qed.

(** * skip *)

Lemma skip_fields_runs d sk x : (forall t, vok d (sk t)) ->
  forall fuel s, Fp T x (px s) -> (sz s < F)%nat -> depth s = d ->
    (sz s < fuel)%nat ->
    match skip_fields P fuel sk s with
    | (Ok _, s') => Sp T x (px s') /\ (sz s' + kt T <= sz s)%nat
                    /\ depth s' = d
    | (Raise _, _) => True
    | (Diverge, s') => dv (px s') (inp s')
    end.
Proof.
  intros Hsk. induction fuel as [|fuel IH]; intros s Hf Hl Hd Hu; [lia|].
  cbn [skip_fields]. unfold bind.
  pose proof (tm_fbeg T F d x s Hf Hl Hd) as H1.
  destruct (readFieldBegin P s) as [[[t id]| |] s1]; auto.
  destruct H1 as (Q1 & D1). cbn [fst] in Q1.
  destruct (t =? T_STOP); destruct Q1 as [Q1 L1]; [cbn; auto|].
  destruct (Hsk t) as [H2 _]. specialize (H2 s1 Logic.I ltac:(lia) D1).
  destruct (sk t s1) as [[u| |] s2]; auto. destruct H2 as (Q2 & L2 & D2).
  pose proof (tm_fend T F d x s2 (E_Vp T _ _ _ Q1 Q2) ltac:(lia) D2) as H3.
  destruct (readFieldEnd P s2) as [[u'| |] s3]; auto. destruct H3 as (Q3 & L3 & D3).
  specialize (IH s3 Q3 ltac:(lia) D3 ltac:(lia)).
  destruct (skip_fields P fuel sk s3) as [[u''| |] s4]; auto.
  destruct IH as (Q4 & L4 & D4). repeat split; auto. lia.
Qed.

Theorem skip_runs d k : forall t, vok d (skip P F k t).
Proof.
  induction k as [|k IH]; intros t; [split; apply runs_raise|].
  cbn [skip].
  assert (BD : forall b A (m : M X A) (f : A -> value),
    read_base P b = (v <- m ;; ret (f v)) ->
    match b with TList _ | TSet _ | TMap _ _ | TStruct _ => False | _ => True end ->
    vok d (m ;;; ret tt)).
  { intros b A m f Hb Hc. apply vok_drop, (vok_map d m f). rewrite <- Hb.
    exact (tm_base T b F d Hc). }
  destruct (t =? T_BOOL); [exact (BD TBool _ _ VBool eq_refl Logic.I)|].
  destruct (t =? T_BYTE); [exact (BD TByte _ _ VInt eq_refl Logic.I)|].
  destruct (t =? T_I16); [exact (BD TI16 _ _ VInt eq_refl Logic.I)|].
  destruct (t =? T_I32); [exact (BD TI32 _ _ VInt eq_refl Logic.I)|].
  destruct (t =? T_I64); [exact (BD TI64 _ _ VInt eq_refl Logic.I)|].
  destruct (t =? T_DOUBLE); [exact (BD TDouble _ _ VDouble eq_refl Logic.I)|].
  destruct (t =? T_STRING); [exact (BD TString _ _ VStr eq_refl Logic.I)|].
  destruct (t =? T_STRUCT).
  { apply vok_k with (k := (ks T + (kt T + 0))%nat); [pose proof (kst T); lia|].
    eapply runs_bind; [apply (tm_sbeg T)|]. intros x a _.
    eapply runs_bind with (Q1 := fun _ _ x' => Sp T x x').
    - intros s Hs Hl Hd. cbn beta in Hs.
      pose proof (skip_fields_runs d (skip P F k) x IH F s Hs Hl Hd Hl) as H.
      destruct (skip_fields P F (skip P F k) s) as [[u| |] s1]; auto.
    - intros y b _. eapply runs_weak; [apply (tm_send T F d x)|cbn; auto|lia|cbn; auto]. }
  destruct (t =? T_MAP).
  { apply vok_1. change 1%nat with (1 + 0)%nat.
    eapply runs_bind; [apply (tm_mbeg T)|]. intros x [[kt vt] n] _.
    eapply runs_ext; [intros s; apply seq_ret|].
    eapply runs_weak; [apply (container d _ n tt (readMapEnd P) (fun _ => tt) x)
                      |cbn; auto|lia|cbn; auto].
    - intros _. change 1%nat with (1 + 0)%nat.
      eapply runs_bind; [apply IH|]. intros y b Hy.
      eapply runs_weak; [apply (IH vt)| |lia|].
      + cbn. intros z Hz. eapply E_elem; eassumption.
      + cbn. intros z c w Hz Hw. eapply E_trans; eassumption.
    - apply (tm_mend T). }
  assert (LS : forall (hd : M X (Z * Z)) (me : M X unit),
    runs F d (fun _ => True) 1 (fun x _ x' => Lp T x x') hd ->
    (forall x, runs F d (Lp T x) 0 (fun _ _ x' => E T x x') me) ->
    vok d (bind hd (fun '(et, n) =>
           repeatM F n (fun _ : unit => skip P F k et) tt ;;; me))).
  { intros hd me Hh Hm. apply vok_1. change 1%nat with (1 + 0)%nat.
    eapply runs_bind; [apply Hh|]. intros x [et n] _.
    eapply runs_ext; [intros s; apply seq_ret|].
    eapply runs_weak; [apply (container d _ n tt me (fun _ => tt) x)
                      |cbn; auto|lia|cbn; auto].
    - intros _. apply IH.
    - apply Hm. }
  destruct (t =? T_SET); [apply LS; [apply (tm_tbeg T)|apply (tm_tend T)]|].
  destruct (t =? T_LIST); [apply LS; [apply (tm_lbeg T)|apply (tm_lend T)]|].
  destruct (t =? T_UUID); [exact (BD TUuid _ _ VUuid eq_refl Logic.I)|].
  split; apply runs_raise.
Qed.

(** * Generated readers *)

Lemma vok_elem {A} d (m : M X A) : vok d m ->
  runs F d (elem T) 1 (fun x _ x' => E T x x') m.
Proof. intros [_ H]; exact H. Qed.

Lemma vok_any {A} d (m : M X A) : vok d m ->
  runs F d (fun _ => True) 0 (fun x _ x' => E T x x') m.
Proof. intros [H _]; exact H. Qed.

Lemma runs_end {A B} d (I : X -> Prop) x0 (a : A) (f : A -> B) :
  (forall x, I x -> E T x0 x) ->
  runs F d I 0 (fun _ _ x' => E T x0 x') (ret (f a)).
Proof.
  intros Hi. eapply runs_weak; [apply (runs_ret _ F d (fun _ => True))|cbn; auto|lia|].
  cbn. intros y b z Hy [_ ->]. apply Hi, Hy.
Qed.

Lemma read_ty_runs d rs : (forall n, vok d (rs n)) -> forall t, vok d (read_ty P rs F t).
Proof.
  intros Hrs. induction t; cbn [read_ty];
    try (match goal with |- vok _ (read_base _ ?t) => exact (tm_base T t F d Logic.I) end).
  - apply vok_1. change 1%nat with (1 + 0)%nat.
    eapply runs_bind; [apply (tm_lbeg T)|]. intros x [et n] _.
    eapply runs_weak; [apply (container d _ n [] (readListEnd P) VList x)
                      |cbn; auto|lia|cbn; auto].
    + intros acc. change 1%nat with (1 + 0)%nat.
      eapply runs_bind; [apply vok_elem, IHt|]. intros y b Hy.
      apply (runs_end d _ y b (fun v => acc ++ [v])). auto.
    + apply (tm_lend T).
  - apply vok_1. change 1%nat with (1 + 0)%nat.
    eapply runs_bind; [apply (tm_tbeg T)|]. intros x [et n] _.
    eapply runs_weak; [apply (container d _ n [] (readSetEnd P) VSet x)
                      |cbn; auto|lia|cbn; auto].
    + intros acc. change 1%nat with (1 + 0)%nat.
      eapply runs_bind; [apply vok_elem, IHt|]. intros y b Hy.
      destruct (hashable t); [|apply runs_raise].
      apply (runs_end d _ y b (fun v => set_add acc v)). auto.
    + apply (tm_tend T).
  - apply vok_1. change 1%nat with (1 + 0)%nat.
    eapply runs_bind; [apply (tm_mbeg T)|]. intros x [[kt vt] n] _.
    eapply runs_weak; [apply (container d _ n [] (readMapEnd P) VMap x)
                      |cbn; auto|lia|cbn; auto].
    + intros acc. change 1%nat with (1 + (0 + 0))%nat.
      eapply runs_bind; [apply vok_elem, IHt1|]. intros y b Hy.
      eapply runs_bind with (Q1 := fun _ _ x' => E T y x').
      * eapply runs_weak; [apply vok_any, IHt2|cbn; auto|lia|].
        cbn. intros z c w Hz Hw. eapply E_trans; eassumption.
      * intros z c Hz. destruct (hashable t1); [|apply runs_raise].
        apply (runs_end d _ y c (fun v => dict_set acc b v)). auto.
    + apply (tm_mend T).
  - apply Hrs.
Qed.

Lemma read_fields_runs d rv x ds : (forall t, vok d (rv t)) ->
  forall fuel acc s, Fp T x (px s) -> (sz s < F)%nat -> depth s = d ->
    (sz s < fuel)%nat ->
    match read_fields P fuel F rv ds acc s with
    | (Ok _, s') => Sp T x (px s') /\ (sz s' + kt T <= sz s)%nat
                    /\ depth s' = d
    | (Raise _, _) => True
    | (Diverge, s') => dv (px s') (inp s')
    end.
Proof.
  intros Hrv. induction fuel as [|fuel IH]; intros acc s Hf Hl Hd Hu; [lia|].
  cbn [read_fields]. unfold bind at 1.
  pose proof (tm_fbeg T F d x s Hf Hl Hd) as H1.
  destruct (readFieldBegin P s) as [[[t id]| |] s1]; auto.
  destruct H1 as (Q1 & D1). cbn [fst] in Q1.
  destruct (t =? T_STOP); destruct Q1 as [Q1 L1]; [cbn; auto|].
  assert (G : forall A (m : M X A) (g : A -> list (option value)), vok d m ->
    match (v <- m ;; readFieldEnd P ;;; read_fields P fuel F rv ds (g v)) s1 with
    | (Ok _, s') => Sp T x (px s') /\ (sz s' + kt T <= sz s)%nat
                    /\ depth s' = d
    | (Raise _, _) => True
    | (Diverge, s') => dv (px s') (inp s')
    end).
  { intros A m g [Hm _]. unfold bind. specialize (Hm s1 Logic.I ltac:(lia) D1).
    destruct (m s1) as [[v| |] s2]; auto. destruct Hm as (Q2 & L2 & D2).
    pose proof (tm_fend T F d x s2 (E_Vp T _ _ _ Q1 Q2) ltac:(lia) D2) as H3.
    destruct (readFieldEnd P s2) as [[u'| |] s3]; auto. destruct H3 as (Q3 & L3 & D3).
    specialize (IH (g v) s3 Q3 ltac:(lia) D3 ltac:(lia)).
    destruct (read_fields P fuel F rv ds (g v) s3) as [[u''| |] s4]; auto.
    destruct IH as (Q4 & L4 & D4). repeat split; auto. lia. }
  destruct (find_field ds id) as [[i fd]|].
  - destruct (t =? code (f_ty fd)).
    + apply (G _ (rv (f_ty fd)) (fun v => set_nth i (Some v) acc)). apply Hrv.
    + apply (G _ (skip P F SKIP_DEPTH t) (fun _ => acc)). apply skip_runs.
  - apply (G _ (skip P F SKIP_DEPTH t) (fun _ => acc)). apply skip_runs.
Qed.

Lemma runs_depth {A} d I k (Q : X -> A -> X -> Prop) m :
  (d + 1 <= 64 -> runs F (d + 1) I k Q m) -> runs F d I k Q (with_depth m).
Proof.
  intros Hm s Hi Hl Hd. unfold with_depth, increment_recursion_depth, bind, try_finally.
  rewrite Hd. unfold DEFAULT_RECURSION_DEPTH.
  destruct (d + 1 >? 64) eqn:B; [exact Logic.I|].
  specialize (Hm ltac:(lia) (mkst (px s) (inp s) (out s) (d + 1)) Hi Hl eq_refl).
  destruct (m _) as [[a| |] s1]; auto. cbn [px inp out depth] in *.
  destruct Hm as (H1 & H2 & H3). unfold decrement_recursion_depth.
  cbn [px inp out depth]. repeat split; auto. lia.
Qed.

Theorem read_struct_runs env k : forall d n, 0 <= d <= 64 -> 65 <= d + Z.of_nat k ->
  vok d (read_struct P env k F n).
Proof.
  induction k as [|k IH]; intros d n H0 Hk; [lia|].
  cbn [read_struct]. destruct (nth_error env n) as [ds|];
    [|split; apply runs_raise].
  apply vok_k with (k := (ks T + (kt T + (0 + 0)))%nat); [pose proof (kst T); lia|].
  apply runs_depth. intros Hd.
  eapply runs_bind; [apply (tm_sbeg T)|]. intros x a _.
  eapply runs_bind with (Q1 := fun _ _ x' => Sp T x x').
  - intros s Hs Hl Hd'. cbn beta in Hs.
    assert (V : forall t, vok (d + 1) (read_ty P (read_struct P env k F) F t)).
    { intros t. apply read_ty_runs. intros m. apply IH; lia. }
    pose proof (read_fields_runs (d + 1) _ x ds V F (fresh ds) s Hs Hl Hd' Hl) as H.
    destruct (read_fields P F F _ ds (fresh ds) s) as [[u| |] s1]; auto.
  - intros y acc _. eapply runs_bind with (Q1 := fun _ _ x' => E T x x').
    + eapply runs_weak; [apply (tm_send T F (d + 1) x)|cbn; auto|lia|cbn; auto].
    + intros z b _. apply (runs_end (d + 1) _ x acc (VStruct n)). auto.
Qed.

End Term.

End Size.

Arguments ks {X mu dv P} _.
Arguments kt {X mu dv P} _.
Arguments kst {X mu dv P} _.
Arguments E {X mu dv P} _.
Arguments elem {X mu dv P} _.
Arguments Fp {X mu dv P} _.
Arguments Sp {X mu dv P} _.
Arguments Vp {X mu dv P} _.
Arguments Lp {X mu dv P} _.
Arguments E_refl {X mu dv P} _.
Arguments E_trans {X mu dv P} _.
Arguments E_elem {X mu dv P} _.
Arguments E_Vp {X mu dv P} _.
Arguments E_Lp {X mu dv P} _.
Arguments Lp_elem {X mu dv P} _.
Arguments tm_base {X mu dv P} _.
Arguments tm_sbeg {X mu dv P} _.
Arguments tm_fbeg {X mu dv P} _.
Arguments tm_fend {X mu dv P} _.
Arguments tm_send {X mu dv P} _.
Arguments tm_lbeg {X mu dv P} _.
Arguments tm_lend {X mu dv P} _.
Arguments tm_tbeg {X mu dv P} _.
Arguments tm_tend {X mu dv P} _.
Arguments tm_mbeg {X mu dv P} _.
Arguments tm_mend {X mu dv P} _.

(** * The protocols *)

(** No look-ahead; no endless loop. *)
Definition no_ahead {X} : X -> nat := fun _ => O.
Definition never {X} : X -> list byte -> Prop := fun _ _ => False.

Lemma readAll_inv X n (s : st X) :
  match readAll n s with
  | (Ok l, s') => px s' = px s /\ depth s' = depth s
                  /\ (length (inp s') + Z.to_nat n <= length (inp s))%nat
  | (Raise _, _) => True
  | (Diverge, _) => False
  end.
Proof.
  unfold readAll. destruct (n <=? 0) eqn:E0.
  - repeat split; auto. lia.
  - destruct (n <=? Z.of_nat (length (inp s))) eqn:E1; [|exact Logic.I].
    cbn [px inp depth]. repeat split; auto. rewrite skipn_length. lia.
Qed.

Lemma readVarint_inv X (s : st X) :
  match readVarint s with
  | (Ok l, s') => px s' = px s /\ depth s' = depth s
                  /\ (length (inp s') + 1 <= length (inp s))%nat
  | (Raise _, _) => True
  | (Diverge, _) => False
  end.
Proof.
  unfold readVarint.
  enough (G : forall k r sh s,
    match readVarint_loop k r sh s with
    | (Ok l, s') => px s' = px s /\ depth s' = depth s
                    /\ (length (inp s') + 1 <= length (inp s))%nat
    | (Raise _, _) => True
    | (Diverge, _) => False
    end) by apply G.
  clear s. induction k as [|k IH]; intros r sh s; [exact Logic.I|].
  cbn [readVarint_loop]. unfold bind. pose proof (readAll_inv X 1 s) as H.
  destruct (readAll 1 s) as [[l| |] s1]; auto. destruct H as (H1 & H2 & H3).
  destruct (_ =? 0).
  - cbn. repeat split; auto.
  - specialize (IH (Z.lor r (Z.shiftl (Z.land (be_val l) 127) sh)) (sh + 7) s1).
    destruct (readVarint_loop _ _ _ s1) as [[v| |] s2]; auto.
    destruct IH as (K1 & K2 & K3). repeat split; try congruence. lia.
Qed.

Ltac walk :=
  repeat (cbv beta iota zeta; cbn [px inp out depth fst snd]; match goal with
  | |- True => exact Logic.I
  | |- context [readAll ?n ?s] =>
      let H := fresh in pose proof (readAll_inv _ n s) as H;
      destruct (readAll n s) as [[?l|?e|] ?s1]; [|exact Logic.I|exact H];
      let P1 := fresh in let P2 := fresh in let P3 := fresh in
      destruct H as (P1 & P2 & P3)
  | |- context [readVarint ?s] =>
      let H := fresh in pose proof (readVarint_inv _ s) as H;
      destruct (readVarint s) as [[?l|?e|] ?s1]; [|exact Logic.I|exact H];
      let P1 := fresh in let P2 := fresh in let P3 := fresh in
      destruct H as (P1 & P2 & P3)
  end).

Ltac cases := repeat (match goal with
    | |- context [if ?b then _ else _] => destruct b eqn:?
    | |- context [match ?b with Some _ => _ | None => _ end] => destruct b eqn:?
    end; walk).

Ltac b_go := intros; lazymatch goal with |- _ /\ _ => fail | _ => idtac end;
  try intros s Hi Hl Hd; b_unfold; unfold sz, no_ahead, never in *;
  unfold ret, raise, bind, assert_; walk; cases; repeat split; auto; try lia.

Definition binary_term cf : term no_ahead never (binary cf).
Proof.
  refine {| ks := 0; kt := 1; E := fun _ _ => True; elem := fun _ => True; Fp := fun _ _ => True;
            Sp := fun _ _ => True; Vp := fun _ _ => True; Lp := fun _ _ => True |};
    auto; try b_go.
  intros t F d Ht.
  enough (G : forall k, (k <= 1)%nat ->
    runs no_ahead never F d (fun _ => True) k (fun _ _ _ => True) (read_base (binary cf) t))
    by (split; apply G; lia).
  intros k Hk. destruct t; try contradiction; cbn [read_base]; b_go.
Qed.

Definition c_same (x x' : cst) : Prop :=
  state x' = state x /\ structs x' = structs x /\ containers x' = containers x.
Definition c_Fp (x x' : cst) : Prop :=
  state x' = FIELD_READ /\ (exists l, structs x' = (state x, l) :: structs x)
  /\ containers x' = containers x.
Definition c_Vp (x x' : cst) : Prop :=
  (exists l, structs x' = (state x, l) :: structs x) /\ containers x' = containers x.
Definition c_Lp (x x' : cst) : Prop :=
  state x' = CONTAINER_READ /\ structs x' = structs x
  /\ containers x' = state x :: containers x.

Ltac c_go := intros; try intros s Hi Hl Hd; c_unfold; unfold sz, no_ahead, never in *;
  unfold ret, raise, bind, assert_, get_px, set_px; walk; cases.

Lemma TTYPES_stop u z : TTYPES (Z.land (Z.land u 15) 15) = Some z ->
  (z =? T_STOP) = true -> (Z.land u 15 =? T_STOP) = true.
Proof.
  rewrite <- Z.land_assoc. change (Z.land 15 15) with 15.
  unfold TTYPES, T_STOP. generalize (Z.land u 15) as c. intros c.
  destruct (c =? 0); [reflexivity|].
  repeat (destruct (c =? _); [intros H; injection H as <-; discriminate|]).
  discriminate.
Qed.

Definition compact_term cf : term no_ahead never (compact cf).
Proof.
  refine {| ks := 0; kt := 1; E := c_same; elem := fun x => state x = CONTAINER_READ; Fp := c_Fp;
            Sp := c_Fp; Vp := c_Vp; Lp := c_Lp |}.
  - lia.
  - intros x; repeat split.
  - unfold c_same. intros x y z (H1 & H2 & H3) (K1 & K2 & K3). repeat split; congruence.
  - unfold c_same. intros x y (H1 & H2 & H3). congruence.
  - unfold c_same, c_Vp. intros x y z ([l H1] & H2) (K1 & K2 & K3).
    split; [exists l|]; congruence.
  - unfold c_same, c_Lp. intros x y z (H1 & H2 & H3) (K1 & K2 & K3).
    repeat split; congruence.
  - intros x y (H1 & _). exact H1.
  - intros t F d Ht. split; destruct t; try contradiction; cbn [read_base]; c_go.
    all: try (unfold c_same; repeat split; try congruence; lia).
    all: destruct (state (px s)) eqn:?; try discriminate; walk.
    all: unfold c_same; repeat split; try congruence; lia.
  - c_go. unfold c_Fp. cbn. repeat split; auto; try lia. eexists; reflexivity.
  - intros F d x s Hi Hl Hd. c_go.
    all: try (match goal with |- False => exfalso end).
    all: unfold c_Fp, c_Vp in *; destruct Hi as (I1 & [lx I2] & I3); cbn in *.
    all: repeat split; try congruence; try lia.
    all: try (exists lx; congruence).
    all: match goal with
         | H : TTYPES _ = Some ?z, H0 : (?z =? T_STOP) = true |- _ =>
             pose proof (TTYPES_stop _ _ H H0); congruence
         end.
  - c_go. unfold c_Fp, c_Vp in *. destruct Hi as ([lx I2] & I3). cbn.
    repeat split; auto; try lia. exists lx; assumption.
  - c_go. destruct Hi as (I1 & [lx I2] & I3). rewrite I2. walk. cbn.
    unfold c_same. cbn. repeat split; auto; lia.
  - c_go. all: unfold c_Lp; cbn; repeat split; try congruence; lia.
  - c_go. destruct Hi as (I1 & I2 & I3). rewrite I3. walk. cbn.
    unfold c_same. cbn. repeat split; auto; lia.
  - c_go. all: unfold c_Lp; cbn; repeat split; try congruence; lia.
  - c_go. destruct Hi as (I1 & I2 & I3). rewrite I3. walk. cbn.
    unfold c_same. cbn. repeat split; auto; lia.
  - c_go. all: unfold c_Lp; cbn; repeat split; try congruence; lia.
  - c_go. destruct Hi as (I1 & I2 & I3). rewrite I3. walk. cbn.
    unfold c_same. cbn. repeat split; auto; lia.
Qed.
