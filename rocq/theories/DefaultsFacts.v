(** Facts about the objects behind default values. *)
From Coq Require Import String.
From Coq Require Import ZArith List Bool Lia.
From Coq Require Import Init.Byte.
From Coq Require Import ZifyBool ZifyNat ZifyN.
From Verif Require Import Base Proto GenClass GenClassFacts Const Defaults.
Import ListNotations.
Open Scope Z_scope.

Section Ind.
Variable P : pexpr -> Prop.
Hypothesis H0 : forall x, match x with XList _ _ | XSet _ _ | XDict _ _ | XNew _ _ => False | _ => True end -> P x.
Hypothesis HL : forall i l, Forall P l -> P (XList i l).
Hypothesis HS : forall i l, Forall P l -> P (XSet i l).
Hypothesis HD : forall i l, Forall (fun kv => P (fst kv) /\ P (snd kv)) l -> P (XDict i l).
Hypothesis HN : forall n l, Forall (fun kv : list byte * pexpr => P (snd kv)) l -> P (XNew n l).
Fixpoint pexpr_nested (x : pexpr) : P x :=
  match x with
  | XList i l => HL i l ((fix go l : Forall P l :=
      match l with [] => Forall_nil _ | y :: r => Forall_cons y (pexpr_nested y) (go r) end) l)
  | XSet i l => HS i l ((fix go l : Forall P l :=
      match l with [] => Forall_nil _ | y :: r => Forall_cons y (pexpr_nested y) (go r) end) l)
  | XDict i l => HD i l ((fix go l : Forall (fun kv => P (fst kv) /\ P (snd kv)) l :=
      match l with
      | [] => Forall_nil _
      | (k, y) :: r => Forall_cons (k, y) (conj (pexpr_nested k) (pexpr_nested y)) (go r)
      end) l)
  | XNew n l => HN n l ((fix go l : Forall (fun kv : list byte * pexpr => P (snd kv)) l :=
      match l with
      | [] => Forall_nil _
      | (k, y) :: r => Forall_cons (k, y) (pexpr_nested y) (go r)
      end) l)
  | XInt t => H0 (XInt t) Logic.I
  | XFloat t => H0 (XFloat t) Logic.I
  | XFloatInt t => H0 (XFloatInt t) Logic.I
  | XStr r => H0 (XStr r) Logic.I
  | XBytes r => H0 (XBytes r) Logic.I
  | XUuid r => H0 (XUuid r) Logic.I
  | XBool b => H0 (XBool b) Logic.I
  | XEnum e n => H0 (XEnum e n) Logic.I
  end.
End Ind.

Lemma Forall2_impl A B (P Q : A -> B -> Prop) l m : (forall a b, P a b -> Q a b) ->
  Forall2 P l m -> Forall2 Q l m.
Proof. intros H F. induction F; constructor; auto. Qed.

(** The heap only grows. *)
Definition grows (h h' : heap) : Prop := exists t, h' = h ++ t.
Lemma grows_refl h : grows h h.
Proof. exists []. rewrite app_nil_r. reflexivity. Qed.
Lemma grows_trans a b c : grows a b -> grows b c -> grows a c.
Proof. intros [t ->] [u ->]. exists (t ++ u). rewrite app_assoc. reflexivity. Qed.
Lemma grows_alloc h o : grows h (h ++ [o]).
Proof. exists [o]. reflexivity. Qed.
Lemma grows_length h h' : grows h h' -> (length h <= length h')%nat.
Proof. intros [t ->]. rewrite app_length. lia. Qed.

Lemma hbind_ok A B (r : hres A) (f : A -> heap -> hres B) b h' :
  hbind r f = HOk b h' -> exists a h, r = HOk a h /\ f a h = HOk b h'.
Proof. destruct r; cbn [hbind]; intros H; try discriminate. eauto. Qed.

Lemma hmap_grows A B (f : A -> heap -> hres B) (P : A -> Prop) :
  (forall x h y h', P x -> f x h = HOk y h' -> grows h h') ->
  forall l, Forall P l -> forall h ys h', hmap f l h = HOk ys h' -> grows h h'.
Proof.
  intros Hf l Hl. induction Hl as [|x l Hx Hl IH]; intros h ys h' H; cbn [hmap] in H.
  - injection H as _ <-. apply grows_refl.
  - apply hbind_ok in H as (y & h1 & H1 & H). apply hbind_ok in H as (t & h2 & H2 & H).
    injection H as _ <-. apply (grows_trans _ h1); [apply (Hf x h y)|apply (IH h1 t)]; assumption.
Qed.

Section Run.
Variable p : gprog.
Variable ds : list dclass.

Lemma init_field_grows ev f a c kw h v h' :
  (forall x h y h', ev x h = HOk y h' -> grows h h') ->
  init_field ev f a c kw h = HOk v h' -> grows h h'.
Proof.
  intros He H. unfold init_field in H.
  destruct (d_cont f); [|injection H as _ <-; apply grows_refl].
  destruct (d_def f) as [x|]; [|injection H as _ <-; apply grows_refl].
  destruct (c_spec c) as [sp|]; [|discriminate]. destruct (zassoc (d_id f) sp) as [w|]; [|discriminate].
  destruct (same _ w).
  - apply (He x h v). assumption.
  - injection H as _ <-. apply grows_refl.
Qed.
Lemma init_all_grows ev c kw :
  (forall x h y h', ev x h = HOk y h' -> grows h h') ->
  forall fs args h v h', init_all ev fs args c kw h = HOk v h' -> grows h h'.
Proof.
  intros He. induction fs as [|f fs IH]; intros [|a args] h v h' H; cbn [init_all] in H;
    try (injection H as _ <-; apply grows_refl).
  apply hbind_ok in H as (y & h1 & H1 & H). apply hbind_ok in H as (t & h2 & H2 & H).
  injection H as _ <-. apply (grows_trans _ h1); [|apply (IH args h1 t); assumption].
  apply (init_field_grows ev f a c kw h y); assumption.
Qed.
Lemma new_fresh ev cs n kw h v h' :
  (forall x h y h', ev x h = HOk y h' -> grows h h') ->
  new ds cs ev n kw h = HOk v h' ->
  exists h1 a, grows h h1 /\ v = HRef (length h1) /\ h' = h1 ++ [HObj n a].
Proof.
  intros He H. unfold new in H.
  destruct (nth_error ds n) as [d|]; [|discriminate].
  destruct (nth_error cs n) as [c|]; [|discriminate].
  destruct (forallb _ kw); [|discriminate].
  apply hbind_ok in H as (a & h1 & H1 & H). cbn [alloc] in H. injection H as <- <-.
  exists h1, a. split; [|split; reflexivity].
  apply (init_all_grows ev c kw He d (c_args c) h a). assumption.
Qed.

(** A fresh object, or something that is no object. *)
Definition fresh_in (h : heap) (v : hv) (h' : heap) : Prop :=
  match v with HRef l => (length h <= l < length h')%nat | _ => True end.

Lemma alloc_fresh h h1 o : grows h h1 ->
  grows h (h1 ++ [o]) /\ fresh_in h (HRef (length h1)) (h1 ++ [o]).
Proof.
  intros G. split; [apply (grows_trans _ h1); [assumption|apply grows_alloc]|].
  cbn [fresh_in]. rewrite app_length. cbn [length]. pose proof (grows_length _ _ G). lia.
Qed.

(** A literal that makes an object. *)
Definition object_literal (x : pexpr) : bool :=
  match x with XList _ _ | XSet _ _ | XDict _ _ | XNew _ _ => true | _ => false end.

Lemma heval_fresh cs fuel : forall x h v h', heval p ds cs fuel x h = HOk v h' ->
  grows h h' /\ fresh_in h v h' /\ (object_literal x = true <-> exists l, v = HRef l).
Proof.
  induction fuel as [|fuel IHf]; [discriminate|].
  assert (G0 : forall x h y h', heval p ds cs fuel x h = HOk y h' -> grows h h')
    by (intros x h y h' H; apply (IHf x h y h' H)).
  intros x. induction x as [x Hx|i l IH|i l IH|i l IH|n l IH] using pexpr_nested; intros h v h' H.
  - assert (E : heval p ds cs (S fuel) x h
                = match eval p x with
                  | POk y => HOk (of_atom y) h
                  | PNameError => HNameError
                  | PRaise e => HRaise e
                  end) by (destruct x; try contradiction; reflexivity).
    rewrite E in H. destruct (eval p x) as [y| |]; try discriminate. injection H as <- <-.
    split; [apply grows_refl|]. split.
    + destruct y; exact Logic.I.
    + split; [|intros [l Hl]; destruct y; discriminate].
      intros Ho. destruct x; try discriminate; contradiction.
  - cbn [heval] in H. apply hbind_ok in H as (vs & h1 & H1 & H).
    assert (G : grows h h1).
    { refine (hmap_grows _ _ _ _ _ l IH h vs h1 H1). intros x h2 y h3 Hx Hy. apply (Hx h2 y h3 Hy). }
    cbn [alloc] in H. injection H as <- <-.
    destruct (alloc_fresh h h1 (HList i vs) G). cbn [object_literal]. repeat (split; eauto).
  - cbn [heval] in H. apply hbind_ok in H as (vs & h1 & H1 & H).
    assert (G : grows h h1).
    { refine (hmap_grows _ _ _ _ _ l IH h vs h1 H1). intros x h2 y h3 Hx Hy. apply (Hx h2 y h3 Hy). }
    destruct (forallb hashes_h vs); [|discriminate]. cbn [alloc] in H. injection H as <- <-.
    match goal with |- context [h1 ++ [?o]] => destruct (alloc_fresh h h1 o G) end. cbn [object_literal]. repeat (split; eauto).
  - cbn [heval] in H. apply hbind_ok in H as (vs & h1 & H1 & H).
    assert (G : grows h h1).
    { refine (hmap_grows _ _ _ _ _ l IH h vs h1 H1). intros [k x] h2 y h3 [Hk Hx] Hy.
      apply hbind_ok in Hy as (a & h4 & A1 & A2). apply hbind_ok in A2 as (b & h5 & A3 & A4).
      injection A4 as _ <-. apply (grows_trans _ h4); [apply (Hk h2 a h4 A1)|apply (Hx h4 b h5 A3)]. }
    destruct (forallb _ vs); [|discriminate]. cbn [alloc] in H. injection H as <- <-.
    match goal with |- context [h1 ++ [?o]] => destruct (alloc_fresh h h1 o G) end. cbn [object_literal]. repeat (split; eauto).
  - cbn [heval] in H. apply hbind_ok in H as (kw & h1 & H1 & H).
    assert (G : grows h h1).
    { refine (hmap_grows _ _ _ _ _ l IH h kw h1 H1). intros [k x] h2 y h3 Hx Hy.
      destruct (str_literal k) as [s|]; [|discriminate].
      apply hbind_ok in Hy as (b & h4 & A1 & A2). injection A2 as _ <-. apply (Hx h2 b h4 A1). }
    apply (new_fresh _ cs n kw h1 v h' G0) in H as (h2 & a & G2 & -> & ->).
    assert (G3 : grows h h2) by (apply (grows_trans _ h1); assumption).
    destruct (alloc_fresh h h2 (HObj n a) G3). cbn [object_literal]. repeat (split; eauto).
Qed.

Lemma heval_grows cs fuel x h v h' : heval p ds cs fuel x h = HOk v h' -> grows h h'.
Proof. intros H. apply (heval_fresh cs fuel x h v h' H). Qed.

Variable fuel : nat.

(** The default of [f] is an object if it is a literal of that kind. *)
Definition made (f : dfield) (v : hv) : Prop :=
  match d_def f with
  | None => v = HNone
  | Some x => object_literal x = true <-> exists l, v = HRef l
  end.

Lemma default_arg_fresh cs f h v h' : default_arg p ds fuel cs f h = HOk v h' ->
  grows h h' /\ fresh_in h v h'
  /\ made f v.
Proof.
  unfold default_arg, made. destruct (d_def f) as [x|]; intros H.
  - apply (heval_fresh cs fuel x h v h' H).
  - injection H as <- <-. split; [apply grows_refl|]. split; [exact Logic.I|reflexivity].
Qed.

Lemma hmap_ok A B (f : A -> heap -> hres B) (G : forall x h y h', f x h = HOk y h' -> grows h h') :
  forall l h ys h', hmap f l h = HOk ys h' ->
  grows h h' /\ Forall2 (fun x y => exists h1 h2, grows h h1 /\ f x h1 = HOk y h2 /\ grows h2 h') l ys.
Proof.
  induction l as [|x l IH]; intros h ys h' H; cbn [hmap] in H.
  - injection H as <- <-. split; [apply grows_refl|constructor].
  - apply hbind_ok in H as (y & h1 & H1 & H). apply hbind_ok in H as (t & h2 & H2 & H).
    injection H as <- <-. destruct (IH h1 t h2 H2) as [G1 F].
    pose proof (G x h y h1 H1) as G2. split; [apply (grows_trans _ h1); assumption|].
    constructor.
    + exists h, h1. split; [apply grows_refl|]. split; assumption.
    + revert F. apply Forall2_impl. intros a b (h3 & h4 & A1 & A2 & A3).
      exists h3, h4. split; [apply (grows_trans _ h1); assumption|]. split; assumption.
Qed.

(** What [define] leaves: for every class the objects its default arguments
    are, all older than [h']. *)
Definition arg_ok (h' : heap) (f : dfield) (v : hv) : Prop :=
  match v with HRef l => (l < length h')%nat | _ => True end
  /\ made f v.
Lemma arg_ok_grows h h' f v : grows h h' -> arg_ok h f v -> arg_ok h' f v.
Proof.
  intros G [H1 H2]. split; [|assumption]. apply grows_length in G. destruct v; try exact Logic.I. lia.
Qed.
Definition defined (h' : heap) (d : dclass) (c : cls) : Prop :=
  c_spec c = None /\ Forall2 (arg_ok h') d (c_args c).

Lemma default_args_ok cs d h args h' : hmap (default_arg p ds fuel cs) d h = HOk args h' ->
  grows h h' /\ Forall2 (arg_ok h') d args.
Proof.
  intros H. apply hmap_ok in H as [G F].
  - split; [assumption|]. revert F. apply Forall2_impl. intros f v (h1 & h2 & _ & E & G2).
    destruct (default_arg_fresh cs f h1 v h2 E) as (_ & H2 & H3). split; [|assumption].
    apply grows_length in G2. destruct v; try exact Logic.I. cbn [fresh_in] in H2. lia.
  - intros f h1 v h2 E. apply (default_arg_fresh cs f h1 v h2 E).
Qed.

Lemma define_ok todo : forall cs h cs' h', define p ds fuel todo cs h = HOk cs' h' ->
  exists new, cs' = cs ++ new /\ grows h h' /\ Forall2 (defined h') todo new.
Proof.
  induction todo as [|d todo IH]; intros cs h cs' h' H; cbn [define] in H.
  - injection H as <- <-. exists []. rewrite app_nil_r. split; [reflexivity|].
    split; [apply grows_refl|constructor].
  - apply hbind_ok in H as (args & h1 & H1 & H). apply IH in H as (nw & -> & G & F).
    apply default_args_ok in H1 as [G1 F1]. exists (mkcls args None :: nw).
    rewrite <- app_assoc. split; [reflexivity|]. split; [apply (grows_trans _ h1); assumption|].
    constructor; [|assumption]. split; [reflexivity|]. cbn [c_args].
    revert F1. apply Forall2_impl. intros f v. apply arg_ok_grows. assumption.
Qed.

(** What [assign] adds: objects that are younger than [h]. *)
Definition spec_ok (h : heap) (d : dclass) (sp : list (Z * hv)) : Prop :=
  if negative d then sp = []
  else map fst sp = map d_id d
       /\ Forall2 (fun f e => fst e = d_id f /\ made f (snd e)) d sp
       /\ Forall (fun e => match snd e with HRef l => (length h <= l)%nat | _ => True end) sp.
Lemma spec_of_ok cs d h sp h' : spec_of p ds fuel cs d h = HOk sp h' -> grows h h' /\ spec_ok h d sp.
Proof.
  unfold spec_of, spec_ok. destruct (negative d); intros H.
  - injection H as <- <-. split; [apply grows_refl|reflexivity].
  - apply hmap_ok in H as [G F].
    + split; [assumption|].
      assert (F' : Forall2 (fun f e => (fst e = d_id f /\ made f (snd e))
          /\ match snd e with HRef l => (length h <= l)%nat | _ => True end) d sp).
      { revert F. apply Forall2_impl. intros f e (h1 & h2 & G1 & E & _).
        apply hbind_ok in E as (v & h3 & E1 & E2). injection E2 as <- <-. cbn [fst snd].
        destruct (default_arg_fresh cs f h1 v h3 E1) as (_ & H2 & H3).
        split; [split; [reflexivity|assumption]|]. apply grows_length in G1.
        destruct v; try exact Logic.I. cbn [fresh_in] in H2. lia. }
      clear F. split; [|split].
      * induction F' as [|f e d sp [[H1 _] _] _ IH]; [reflexivity|]. cbn [map]. rewrite H1, IH. reflexivity.
      * revert F'. apply Forall2_impl. intros f e [H _]. assumption.
      * induction F' as [|f e d sp [_ H1] _ IH]; constructor; auto.
    + intros f h1 e h2 E. apply hbind_ok in E as (v & h3 & E1 & E2). injection E2 as _ <-.
      apply (default_arg_fresh cs f h1 v h3 E1).
Qed.

Definition loaded (h1 h : heap) (d : dclass) (c : cls) : Prop :=
  Forall2 (arg_ok h1) d (c_args c)
  /\ exists sp, c_spec c = Some sp /\ spec_ok h1 d sp.

Lemma spec_ok_grows h h' d sp : grows h h' -> spec_ok h' d sp -> spec_ok h d sp.
Proof.
  intros G. unfold spec_ok. destruct (negative d); [auto|]. intros (H1 & H2 & H3).
  split; [assumption|]. split; [assumption|]. revert H3. apply Forall_impl.
  intros e. apply grows_length in G. destruct (snd e); auto. lia.
Qed.

Lemma set_spec_app sp pre c r : set_spec (length pre) sp (pre ++ c :: r)
  = pre ++ mkcls (c_args c) (Some sp) :: r.
Proof. induction pre as [|x pre IH]; [reflexivity|]. cbn [length app set_spec]. rewrite IH. reflexivity. Qed.

Lemma assign_ok h1 todo : forall n pre cs h cs' h', n = length pre -> grows h1 h ->
  Forall2 (defined h1) todo cs ->
  assign p ds fuel todo n (pre ++ cs) h = HOk cs' h' ->
  exists nw, cs' = pre ++ nw /\ grows h h' /\ Forall2 (loaded h1 h') todo nw.
Proof.
  induction todo as [|d todo IH]; intros n pre cs h cs' h' Hn G Hc H; cbn [assign] in H.
  - inversion Hc; subst. injection H as <- <-. exists []. split; [reflexivity|].
    split; [apply grows_refl|constructor].
  - inversion Hc as [|? c ? r [Hs Ha] Hr]; subst.
    apply hbind_ok in H as (sp & h2 & H1 & H). apply spec_of_ok in H1 as [G2 S].
    rewrite set_spec_app in H.
    change (pre ++ mkcls (c_args c) (Some sp) :: r) with (pre ++ [mkcls (c_args c) (Some sp)] ++ r) in H.
    rewrite app_assoc in H. apply (IH _ _ r) in H as (nw & -> & G3 & F).
    + exists (mkcls (c_args c) (Some sp) :: nw). rewrite <- app_assoc. split; [reflexivity|].
      split; [apply (grows_trans _ h2); assumption|]. constructor; [|assumption].
      split; [assumption|]. cbn [c_spec]. exists sp. split; [reflexivity|].
      apply (spec_ok_grows h1 h); assumption.
    + rewrite app_length. cbn [length]. lia.
    + apply (grows_trans _ h); assumption.
    + assumption.
Qed.

Lemma load_ok cs h : load p ds fuel = HOk cs h ->
  exists h1, grows h1 h /\ Forall2 (loaded h1 h) ds cs.
Proof.
  unfold load. intros H. apply hbind_ok in H as (cs1 & h1 & H1 & H).
  apply define_ok in H1 as (nw & -> & _ & F). cbn [app] in H.
  apply (assign_ok h1 ds 0%nat [] nw h1 cs h) in H as (nw' & -> & G & F'); auto using grows_refl.
  exists h1. split; assumption.
Qed.

End Run.
