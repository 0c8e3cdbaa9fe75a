(** Generic theorems: for a protocol that meets the laws of Laws.v, writing
    produces the encoding, reading the encoding gives the value back (as seen
    through the reader's schema), skipping it consumes exactly the encoding. *)
From Coq Require Import ZArith List Bool Lia.
From Coq Require Import Init.Byte.
From Coq Require Import ZifyBool ZifyNat ZifyN.
From Verif Require Import Base Bytes Utf8 Utf8Facts Proto Spec Laws.
Import ListNotations.
Open Scope Z_scope.

(** * Induction on values *)

Section ValueInd.
Variable Q : value -> Prop.
Hypothesis Hbool : forall b, Q (VBool b).
Hypothesis Hint : forall z, Q (VInt z).
Hypothesis Hdbl : forall z, Q (VDouble z).
Hypothesis Hstr : forall s, Q (VStr s).
Hypothesis Hbin : forall b, Q (VBin b).
Hypothesis Huuid : forall b, Q (VUuid b).
Hypothesis Hlist : forall l, Forall Q l -> Q (VList l).
Hypothesis Hset : forall l, Forall Q l -> Q (VSet l).
Hypothesis Hmap : forall l, Forall (fun kv => Q (fst kv) /\ Q (snd kv)) l ->
  Q (VMap l).
Hypothesis Hstruct : forall n fs,
  Forall (fun f => match f with Some x => Q x | None => True end) fs ->
  Q (VStruct n fs).

Fixpoint value_rect' (v : value) : Q v :=
  match v with
  | VBool b => Hbool b
  | VInt z => Hint z
  | VDouble z => Hdbl z
  | VStr s => Hstr s
  | VBin b => Hbin b
  | VUuid b => Huuid b
  | VList l => Hlist l ((fix go l := match l return Forall Q l with
      | [] => Forall_nil _
      | x :: r => Forall_cons x (value_rect' x) (go r) end) l)
  | VSet l => Hset l ((fix go l := match l return Forall Q l with
      | [] => Forall_nil _
      | x :: r => Forall_cons x (value_rect' x) (go r) end) l)
  | VMap l => Hmap l ((fix go l :=
      match l return Forall (fun kv => Q (fst kv) /\ Q (snd kv)) l with
      | [] => Forall_nil _
      | (k, x) :: r =>
          Forall_cons (k, x) (conj (value_rect' k) (value_rect' x)) (go r)
      end) l)
  | VStruct n fs => Hstruct n fs ((fix go l :=
      match l return Forall
        (fun f => match f with Some x => Q x | None => True end) l with
      | [] => Forall_nil _
      | None :: r => Forall_cons None I (go r)
      | Some x :: r => Forall_cons (Some x) (value_rect' x) (go r)
      end) fs)
  end.
End ValueInd.

(** * Facts about well-formed values *)

Fixpoint wf_fields {D} (env : schema) (SL CL : Z) (fs : list (option value))
    (ds : list fielddef) : bool :=
  match fs, ds with
  | [], [] => true
  | f :: fs', d :: ds' =>
      match f with
      | None => negb (f_req d)
      | Some x => wfd D env SL CL (f_ty d) x
      end && wf_fields (D := D) env SL CL fs' ds'
  | _, _ => false
  end.

Lemma wf_struct {D} env SL CL n m fs : wfd D env SL CL (TStruct n) (VStruct m fs) =
  (n =? m)%nat && match nth_error env n with
                  | None => false
                  | Some ds => wf_fields (D := D) env SL CL fs ds
                  end.
Proof.
  cbn [wfd]. f_equal. destruct (nth_error env n) as [ds|]; [|reflexivity].
  revert ds; induction fs as [|[x|] fs IH]; intros [|d ds];
    cbn [wf_fields]; try reflexivity; f_equal; apply IH.
Qed.

Lemma wf_fields_validate {D} env SL CL fs ds :
  wf_fields (D := D) env SL CL fs ds = true -> validate ds fs = true.
Proof.
  revert ds; induction fs as [|[x|] fs IH]; intros [|d ds] H;
    cbn [wf_fields validate] in *; try discriminate; try reflexivity;
    apply andb_prop in H as [H1 H2].
  - auto.
  - rewrite H1. cbn [andb]. auto.
Qed.

Lemma wf_base {D} env SL CL t v : base_ty t = true ->
  wfd D env SL CL t v = base_okd D SL t v.
Proof. destruct t; intros H; try discriminate; destruct v; reflexivity. Qed.

Lemma code_bool t : code t = T_BOOL -> t = TBool.
Proof. destruct t; intros H; try reflexivity; discriminate. Qed.

Lemma hashable_base t : hashable t = true -> base_ty t = true.
Proof. destruct t; auto. Qed.

Lemma base_ok_bool {D} SL t v : base_okd D SL t v = true ->
  (t = TBool <-> exists b, v = VBool b).
Proof.
  split.
  - intros ->. destruct v; try discriminate. eauto.
  - intros [b ->]. destruct t; try discriminate. reflexivity.
Qed.

(** * Combinators *)

Definition WrD {X C} (rep : C -> X -> Prop) (d : Z) (c c' : C)
    (bs : list byte) (m : M X unit) : Prop :=
  forall x i o, rep c x ->
    exists x', m (mkst x i o d) = (Ok tt, mkst x' i (o ++ bs) d) /\ rep c' x'.

Definition RdD {X C A} (rep : C -> X -> list byte -> list byte -> Prop)
    (d : Z) (Q : list byte -> Prop) (c c' : C) (bs : list byte) (m : M X A)
    (v : A) : Prop :=
  forall tail, Q tail -> forall x i o, rep c x i (bs ++ tail) ->
    exists x' i', m (mkst x i o d) = (Ok v, mkst x' i' o d)
                  /\ rep c' x' i' tail.

Lemma bind_ok {S A B} (m : SM S A) (k : A -> SM S B) s a s1 :
  m s = (Ok a, s1) -> bind m k s = k a s1.
Proof. intros H. unfold bind. rewrite H. reflexivity. Qed.

Lemma bind_assoc {S A B D} (m : SM S A) (f : A -> SM S B) (g : B -> SM S D) s :
  bind (bind m f) g s = bind m (fun a => bind (f a) g) s.
Proof. unfold bind. destruct (m s) as [[a|e|] s1]; reflexivity. Qed.

Section Comb.
Context {X C : Type}.
Variable wr : C -> X -> Prop.

Lemma Wr_D c c' bs m d : Wr wr c c' bs m -> WrD wr d c c' bs m.
Proof. intros H x i o Hx. exact (H x i o d Hx). Qed.

Lemma Wr_bind d c1 c2 c3 b1 b2 m1 (m2 : M X unit) :
  WrD wr d c1 c2 b1 m1 -> WrD wr d c2 c3 b2 m2 ->
  WrD wr d c1 c3 (b1 ++ b2) (m1 ;;; m2).
Proof.
  intros H1 H2 x i o Hx. destruct (H1 x i o Hx) as (x1 & E1 & R1).
  destruct (H2 x1 i (o ++ b1) R1) as (x2 & E2 & R2).
  exists x2. unfold bind. rewrite E1, E2, app_assoc. auto.
Qed.

Lemma Wr_ret d c : WrD wr d c c [] (ret tt).
Proof. intros x i o Hx. exists x. rewrite app_nil_r. auto. Qed.

Lemma Wr_depth d c c' bs m : d + 1 <= 64 ->
  WrD wr (d + 1) c c' bs m -> WrD wr d c c' bs (with_depth m).
Proof.
  intros Hd H x i o Hx. destruct (H x i o Hx) as (x1 & E1 & R1).
  exists x1. unfold with_depth, bind, increment_recursion_depth.
  cbn [depth px inp out]. unfold DEFAULT_RECURSION_DEPTH.
  destruct (d + 1 >? 64) eqn:G; [lia|].
  unfold try_finally. rewrite E1. unfold decrement_recursion_depth.
  cbn [depth px inp out]. replace (d + 1 - 1) with d by lia. auto.
Qed.

End Comb.

Section CombR.
Context {X C : Type}.
Variable rr : C -> X -> list byte -> list byte -> Prop.

Lemma Rd_D {A} Q c c' bs (m : M X A) v d :
  Rd rr Q c c' bs m v -> RdD rr d Q c c' bs m v.
Proof. intros H tail Ht x i o Hx. exact (H tail Ht x i o d Hx). Qed.

(** Reading [b1] then [b2]. *)
Lemma Rd_bind {A B} d (Q1 Q2 : list byte -> Prop) c1 c2 c3 b1 b2
    (m : M X A) (k : A -> M X B) v w :
  RdD rr d Q1 c1 c2 b1 m v ->
  (forall tail, Q2 tail -> Q1 (b2 ++ tail)) ->
  RdD rr d Q2 c2 c3 b2 (k v) w ->
  RdD rr d Q2 c1 c3 (b1 ++ b2) (bind m k) w.
Proof.
  intros H1 HQ H2 tail Ht x i o Hx. rewrite <- app_assoc in Hx.
  destruct (H1 (b2 ++ tail) (HQ tail Ht) x i o Hx) as (x1 & i1 & E1 & R1).
  destruct (H2 tail Ht x1 i1 o R1) as (x2 & i2 & E2 & R2).
  exists x2, i2. unfold bind. rewrite E1, E2. auto.
Qed.

Lemma Rd_ret {A} d Q c (v : A) : RdD rr d Q c c [] (ret v) v.
Proof. intros tail _ x i o Hx. exists x, i. auto. Qed.

(** A final pure step. *)
Lemma Rd_map {A B} d Q c c' bs (m : M X A) v (f : A -> B) :
  RdD rr d Q c c' bs m v ->
  RdD rr d Q c c' bs (bind m (fun a => ret (f a))) (f v).
Proof.
  intros H tail Ht x i o Hx. destruct (H tail Ht x i o Hx) as (x1 & i1 & E & R).
  exists x1, i1. unfold bind, ret. rewrite E. auto.
Qed.

Lemma Rd_weak {A} d (Q Q' : list byte -> Prop) c c' bs (m : M X A) v :
  RdD rr d Q c c' bs m v -> (forall t, Q' t -> Q t) ->
  RdD rr d Q' c c' bs m v.
Proof. intros H HQ tail Ht. apply H. auto. Qed.

Lemma Rd_depth {A} d Q c c' bs (m : M X A) v : d + 1 <= 64 ->
  RdD rr (d + 1) Q c c' bs m v -> RdD rr d Q c c' bs (with_depth m) v.
Proof.
  intros Hd H tail Ht x i o Hx.
  destruct (H tail Ht x i o Hx) as (x1 & i1 & E1 & R1).
  exists x1, i1. unfold with_depth, bind, increment_recursion_depth.
  cbn [depth px inp out]. unfold DEFAULT_RECURSION_DEPTH.
  destruct (d + 1 >? 64) eqn:G; [lia|].
  unfold try_finally. rewrite E1. unfold decrement_recursion_depth.
  cbn [depth px inp out]. replace (d + 1 - 1) with d by lia. auto.
Qed.

End CombR.

Section Generic.
Context {X : Type} {P : proto X} {SL CL : Z} (L : laws P SL CL).

Notation WD := (WrD (wrep L)).
Notation RD := (RdD (rrep L)).

(** A position where a value of this type may be written. *)
Definition pos_ok (c : C L) (t : ty) : Prop :=
  match t with
  | TStruct _ => spos L c
  | TBool => epos L c
  | _ => vpos L c
  end.

Lemma pos_ok_epos c t : epos L c -> pos_ok c t.
Proof.
  intros H. pose proof (p_ev _ _ _ L c H). pose proof (p_vs _ _ _ L c H0).
  destruct t; cbn; assumption.
Qed.

Lemma pos_ok_field c f id t : fpos L c f -> t <> TBool ->
  pos_ok (inF L f id None) t.
Proof.
  intros H Ht. pose proof (p_F _ _ _ L c f id H) as H0.
  pose proof (p_vs _ _ _ L _ H0).
  destruct t; cbn; try assumption. congruence.
Qed.

(** * Writing *)

Section Write.
Variable env : schema.
Hypothesis Henv : schema_okd (idok L) env.

Lemma write_elems_enc et d l : Forall (fun x => forall c, pos_ok c et ->
    wfd (dok L) env SL CL et x = true -> d + Z.of_nat (sdepth x) <= 64 ->
    WD d c (nxt L c) (enc L env c et x) (write_value P env et x)) l ->
  forall c e (fin : M X unit), lpos L c e ->
    (forall e', lpos L c e' -> WD d e' (nxt L c) (e_lend L) fin) ->
    forallb (wfd (dok L) env SL CL et) l = true ->
    Forall (fun x => d + Z.of_nat (sdepth x) <= 64) l ->
    WD d e (nxt L c) (enc_elems L env e et l)
       (mapM_ (write_value P env et) l ;;; fin).
Proof.
  induction 1 as [|x l Hx Hl IH]; intros c e fin He Hfin Hwf Hd.
  - cbn [mapM_ enc_elems]. change (e_lend L) with ([] ++ e_lend L).
    eapply Wr_bind; [apply Wr_ret | apply Hfin; assumption].
  - cbn [forallb] in Hwf. apply andb_prop in Hwf as [Hw1 Hw2].
    inversion Hd as [|? ? Hd1 Hd2]; subst.
    cbn [mapM_ enc_elems].
    intros s i o Hs.
    assert (W1 : WD d e (nxt L e) (enc L env e et x) (write_value P env et x)).
    { apply Hx; auto. apply pos_ok_epos. eapply p_Le; eauto. }
    pose proof (IH c (nxt L e) fin (p_Ln _ _ _ L _ _ He) Hfin Hw2 Hd2) as W2.
    pose proof (Wr_bind _ _ _ _ _ _ _ _ _ W1 W2 s i o Hs) as (x' & E & R).
    exists x'. split; [|exact R]. rewrite <- E.
    unfold bind. destruct (write_value P env et x _) as [[[]|e0|] s1];
      reflexivity.
Qed.

Definition witem (kt vt : ty) (kv : value * value) : M X unit :=
  match kv with (k, x) => write_value P env kt k ;;; write_value P env vt x end.

Lemma write_items_enc kt vt d l : Forall (fun kv =>
    (forall c, pos_ok c kt ->
      wfd (dok L) env SL CL kt (fst kv) = true -> d + Z.of_nat (sdepth (fst kv)) <= 64 ->
      WD d c (nxt L c) (enc L env c kt (fst kv)) (write_value P env kt (fst kv)))
    /\ (forall c, pos_ok c vt ->
      wfd (dok L) env SL CL vt (snd kv) = true -> d + Z.of_nat (sdepth (snd kv)) <= 64 ->
      WD d c (nxt L c) (enc L env c vt (snd kv)) (write_value P env vt (snd kv)))) l ->
  forall c e (fin : M X unit), mpos L c e ->
    (forall e', mpos L c e' -> WD d e' (nxt L c) (e_mend L) fin) ->
    forallb (fun kv => match kv with
                       | (k, x) => wfd (dok L) env SL CL kt k && wfd (dok L) env SL CL vt x
                       end) l = true ->
    Forall (fun kv => d + Z.of_nat (sdepth (fst kv)) <= 64
                      /\ d + Z.of_nat (sdepth (snd kv)) <= 64) l ->
    WD d e (nxt L c) (enc_items L env e kt vt l)
       (mapM_ (witem kt vt) l ;;; fin).
Proof.
  induction 1 as [|[k x] l Hx Hl IH]; intros c e fin He Hfin Hwf Hd.
  - cbn [mapM_ enc_items]. change (e_mend L) with ([] ++ e_mend L).
    eapply Wr_bind; [apply Wr_ret | apply Hfin; assumption].
  - cbn [forallb] in Hwf. apply andb_prop in Hwf as [Hw1 Hw2].
    apply andb_prop in Hw1 as [Hwk Hwx].
    inversion Hd as [|? ? Hd1 Hd2]; subst. cbn [fst snd] in *.
    destruct Hx as [Hk Hx]. destruct Hd1 as [Hdk Hdx].
    cbn [mapM_ enc_items].
    intros s i o Hs.
    assert (W1 : WD d e (nxt L e) (enc L env e kt k) (write_value P env kt k)).
    { apply Hk; auto. apply pos_ok_epos. eapply p_Mk; eauto. }
    assert (W2 : WD d (nxt L e) (nxt L (nxt L e)) (enc L env (nxt L e) vt x)
                    (write_value P env vt x)).
    { apply Hx; auto. apply pos_ok_epos. eapply p_Mv; eauto. }
    pose proof (IH c _ fin (p_Mn _ _ _ L _ _ He) Hfin Hw2 Hd2) as W3.
    pose proof (Wr_bind _ _ _ _ _ _ _ _ _ W1
                  (Wr_bind _ _ _ _ _ _ _ _ _ W2 W3) s i o Hs)
      as (x' & E & R).
    exists x'. split; [|exact R]. rewrite <- E. unfold witem.
    unfold bind. destruct (write_value P env kt k _) as [[[]|e0|] s1];
      try reflexivity.
    destruct (write_value P env vt x _) as [[[]|e0|] s2]; reflexivity.
Qed.

Lemma write_fields_enc d ds : forall fs,
  Forall (fun f => match f with
    | Some x => forall t c, pos_ok c t -> wfd (dok L) env SL CL t x = true ->
        d + Z.of_nat (sdepth x) <= 64 ->
        WD d c (nxt L c) (enc L env c t x) (write_value P env t x)
    | None => True end) fs ->
  forall c f, spos L c -> fpos L c f ->
    (forall dd, In dd ds -> idok L (f_id dd) = true) ->
    wf_fields (D := dok L) env SL CL fs ds = true ->
    Forall (fun f => match f with
              | Some x => d + Z.of_nat (sdepth x) <= 64
              | None => True end) fs ->
    WD d f (nxt L c) (enc_fields L env f fs ds)
       (write_fields P (write_value P env) fs ds ;;;
        writeFieldStop P ;;; writeStructEnd P).
Proof.
  induction ds as [|dd ds IH]; intros [|[x|] fs] Hfs c f Hc Hf Hid Hwf Hd;
    cbn [wf_fields] in Hwf; try discriminate.
  - cbn [enc_fields write_fields].
    intros s i o Hs.
    destruct (Wr_D _ _ _ _ _ d (w_send _ _ _ L c f Hc Hf) s i o Hs)
      as (x' & E & R).
    exists x'. split; [|exact R]. rewrite <- E. reflexivity.
  - apply andb_prop in Hwf as [Hw1 Hw2].
    inversion Hfs as [|? ? Hx Hfs2]; subst.
    inversion Hd as [|? ? Hd1 Hd2]; subst.
    assert (Hid1 := Hid dd (or_introl eq_refl)).
    assert (Hid2 : forall d0, In d0 ds ->
              idok L (f_id d0) = true)
      by (intros; apply Hid; right; assumption).
    pose proof (IH fs Hfs2 c (aft L f (f_id dd)) Hc
                  (p_fA _ _ _ L _ _ _ Hf) Hid2 Hw2 Hd2) as W4.
    cbn [enc_fields write_fields]. fold (write_fields P (write_value P env)).
    pose proof (w_fend _ _ _ L c f (f_id dd) (fold_bool (f_ty dd) x) Hf) as W3.
    apply (Wr_D _ _ _ _ _ d) in W3.
    assert (W12 : WD d f (nxt L (inF L f (f_id dd) (fold_bool (f_ty dd) x)))
              (e_fbeg L f (f_id dd) (code (f_ty dd)) (fold_bool (f_ty dd) x)
               ++ enc L env (inF L f (f_id dd) (fold_bool (f_ty dd) x))
                    (f_ty dd) x)
              (writeFieldBegin P (code (f_ty dd)) (f_id dd) ;;;
               write_value P env (f_ty dd) x)).
    { destruct (fold_bool (f_ty dd) x) as [b|] eqn:Ob.
      - destruct (f_ty dd) eqn:Et; try discriminate Ob.
        destruct x; try discriminate Ob. injection Ob as ->.
        cbn [enc write_value write_base code].
        apply Wr_D. eapply w_fbool; eauto.
      - assert (Ht : f_ty dd <> TBool).
        { intros Et. rewrite Et in *. destruct x; discriminate. }
        eapply Wr_bind.
        + apply Wr_D. eapply w_fbeg; eauto.
        + apply Hx; auto. eapply pos_ok_field; eauto. }
    intros s i o Hs.
    pose proof (Wr_bind _ _ _ _ _ _ _ _ _ W12
                  (Wr_bind _ _ _ _ _ _ _ _ _ W3 W4) s i o Hs)
      as (x' & E & R).
    exists x'. split; [|exact R].
    rewrite <- app_assoc in E.
    etransitivity; [|exact E].
    unfold bind.
    destruct (writeFieldBegin P _ _ _) as [[[]|e0|] s1]; try reflexivity.
    destruct (write_value P env (f_ty dd) x s1) as [[[]|e0|] s2];
      try reflexivity.
    destruct (writeFieldEnd P s2) as [[[]|e0|] s3]; reflexivity.
  - apply andb_prop in Hwf as [Hw1 Hw2].
    inversion Hfs as [|? ? Hx Hfs2]; subst.
    inversion Hd as [|? ? Hd1 Hd2]; subst.
    apply IH; auto. intros; apply Hid; right; assumption.
Qed.

Lemma fold_max_le {A} (f : A -> nat) (l : list A) (b : nat) :
  (fold_right (fun x a => Nat.max (f x) a) O l <= b)%nat ->
  Forall (fun x => (f x <= b)%nat) l.
Proof.
  induction l as [|x l IH]; intros H; constructor; cbn [fold_right] in H.
  - lia.
  - apply IH. lia.
Qed.

Lemma sdepth_list l b : (sdepth (VList l) <= b)%nat ->
  Forall (fun x => (sdepth x <= b)%nat) l.
Proof. apply fold_max_le. Qed.

Lemma sdepth_set l b : (sdepth (VSet l) <= b)%nat ->
  Forall (fun x => (sdepth x <= b)%nat) l.
Proof. apply fold_max_le. Qed.

Lemma sdepth_map l b : (sdepth (VMap l) <= b)%nat ->
  Forall (fun kv => (sdepth (fst kv) <= b)%nat /\ (sdepth (snd kv) <= b)%nat) l.
Proof.
  cbn [sdepth]. induction l as [|[k x] l IH]; intros H; constructor;
    cbn [fold_right fst snd] in *; [lia|apply IH; lia].
Qed.

Lemma sdepth_struct n fs b : (sdepth (VStruct n fs) <= S b)%nat ->
  Forall (fun f => match f with
                   | Some x => (sdepth x <= b)%nat | None => True end) fs.
Proof.
  cbn [sdepth]. intros H.
  assert (H' : (fold_right (fun f a => match f with
                   | Some x => Nat.max (sdepth x) a
                   | None => a end) O fs <= b)%nat) by lia.
  clear H. induction fs as [|[x|] fs IH]; constructor;
    cbn [fold_right] in *; auto; try lia; apply IH; lia.
Qed.

Theorem write_enc v : forall d t c, 0 <= d -> pos_ok c t ->
  wfd (dok L) env SL CL t v = true -> d + Z.of_nat (sdepth v) <= 64 ->
  WD d c (nxt L c) (enc L env c t v) (write_value P env t v).
Proof.
  induction v using value_rect'; intros d t c Hd0 Hpos Hwf Hd.
  1-6: assert (Hb : base_ty t = true)
         by (destruct t; try reflexivity; discriminate Hwf);
       rewrite wf_base in Hwf by assumption;
       match goal with |- WD _ _ _ (enc _ _ _ _ ?v) _ =>
         replace (enc L env c t v) with (e_base L c t v)
           by (destruct t; try reflexivity; discriminate Hb);
         replace (write_value P env t v) with (write_base P t v)
           by (destruct t; try reflexivity; discriminate Hb)
       end;
       apply Wr_D; apply w_base; auto;
       [ destruct t; cbn [pos_ok] in Hpos; try discriminate; try assumption;
         apply (p_ev _ _ _ L); assumption
       | intros ->; exact Hpos ].
  - destruct t; try discriminate Hwf.
    cbn [wfd] in Hwf. apply andb_prop in Hwf as [Hn Hl]. cbn [pos_ok] in Hpos.
    rewrite enc_list. cbn [write_value]. unfold len_le in Hn.
    eapply Wr_bind; [apply Wr_D, w_lbeg; [exact Hpos | lia]|].
    apply write_elems_enc; auto.
    + eapply Forall_impl; [|exact H]. cbn beta. auto.
    + apply (p_L _ _ _ L); assumption.
    + intros e' He'. apply Wr_D. eapply w_lend; eauto.
    + assert (Hs := sdepth_list l (Z.to_nat (64 - d))).
      eapply Forall_impl; [|apply Hs; lia]. cbn beta. intros; lia.
  - destruct t; try discriminate Hwf.
    cbn [wfd] in Hwf. apply andb_prop in Hwf as [Hn Hl].
    apply andb_prop in Hn as [Hn _]. apply andb_prop in Hn as [Hn _].
    cbn [pos_ok] in Hpos.
    rewrite enc_set. cbn [write_value]. unfold len_le in Hn.
    eapply Wr_bind; [apply Wr_D, w_tbeg; [exact Hpos | lia]|].
    apply write_elems_enc; auto.
    + eapply Forall_impl; [|exact H]. cbn beta. auto.
    + apply (p_L _ _ _ L); assumption.
    + intros e' He'. apply Wr_D. eapply w_tend; eauto.
    + assert (Hs := sdepth_set l (Z.to_nat (64 - d))).
      eapply Forall_impl; [|apply Hs; lia]. cbn beta. intros; lia.
  - destruct t as [| | | | | | | | | | |kt vt|]; try discriminate Hwf.
    cbn [wfd] in Hwf. apply andb_prop in Hwf as [Hn Hl].
    apply andb_prop in Hn as [Hn _]. apply andb_prop in Hn as [Hn _].
    cbn [pos_ok] in Hpos.
    rewrite enc_map. cbn [write_value]. unfold len_le in Hn.
    eapply Wr_bind; [apply Wr_D, w_mbeg; [exact Hpos | lia]|].
    fold (witem kt vt).
    apply write_items_enc; auto.
    + eapply Forall_impl; [|exact H]. cbn beta. intros [k x] [Hk Hx].
      split; auto.
    + apply (p_M _ _ _ L); assumption.
    + intros e' He'. apply Wr_D. eapply w_mend; eauto.
    + assert (Hs := sdepth_map l (Z.to_nat (64 - d))).
      eapply Forall_impl; [|apply Hs; lia]. cbn beta. intros; lia.
  - destruct t as [| | | | | | | | | | | |m]; try discriminate Hwf.
    rewrite wf_struct in Hwf. apply andb_prop in Hwf as [Hn Hf].
    apply Nat.eqb_eq in Hn. subst m. cbn [pos_ok] in Hpos.
    destruct (nth_error env n) as [ds|] eqn:Eds; [|discriminate].
    rewrite (enc_struct L env c n n fs ds Eds).
    cbn [write_value]. rewrite Eds.
    rewrite (wf_fields_validate _ _ _ _ _ Hf).
    assert (Hsd : (1 <= sdepth (VStruct n fs))%nat) by (cbn [sdepth]; lia).
    apply Wr_depth; [lia|].
    eapply Wr_bind; [apply Wr_D, w_sbeg; exact Hpos|].
    apply write_fields_enc; auto.
    + eapply Forall_impl; [|exact H]. cbn beta. intros [x|]; auto.
      intros Hx t c' Hc' Hw Hdx. apply Hx; auto. lia.
    + apply (p_fS _ _ _ L); assumption.
    + apply (Henv n ds Eds).
    + assert (Hs := sdepth_struct n fs (Z.to_nat (63 - d))).
      eapply Forall_impl; [|apply Hs; lia]. cbn beta.
      intros [x|]; auto. intros; lia.
Qed.

End Write.

(** * Reading: the loops *)

Lemma fold_max_le' {A} (f : A -> nat) (l : list A) (b : nat) :
  (fold_right (fun x a => Nat.max (f x) a) O l <= b)%nat ->
  forall x, In x l -> (f x <= b)%nat.
Proof.
  intros H x Hx. apply fold_max_le in H. rewrite Forall_forall in H. auto.
Qed.

Section Loops.
Variable env : schema.

Lemma enc_start c t v tail : epos L c -> wfd (dok L) env SL CL t v = true ->
  okT L (enc L env (nxt L c) t v ++ tail).
Proof.
  intros Hc Hwf.
  destruct t; destruct v; try discriminate Hwf;
    try (apply (t_base _ _ _ L); assumption).
  - rewrite enc_list, <- app_assoc. apply (t_lbeg _ _ _ L); assumption.
  - rewrite enc_set, <- app_assoc. apply (t_lbeg _ _ _ L); assumption.
  - rewrite enc_map, <- app_assoc. apply (t_mbeg _ _ _ L); assumption.
  - rewrite wf_struct in Hwf. apply andb_prop in Hwf as [Hn Hf].
    apply Nat.eqb_eq in Hn. subst n0.
    destruct (nth_error env n) as [ds|] eqn:E; [|discriminate].
    rewrite (enc_struct L env _ n n fs ds E), <- app_assoc.
    apply (t_sbeg _ _ _ L); assumption.
Qed.

(** What follows the header of a list or set. *)
Lemma elems_start c t l tail : vpos L c ->
  forallb (wfd (dok L) env SL CL t) l = true ->
  okT L (enc_elems L env (inL L c) t l ++ tail).
Proof.
  intros Hc Hl. destruct (p_Li _ _ _ L c Hc) as (e & He & ->).
  destruct l as [|x l]; cbn [enc_elems].
  - apply (t_lend _ _ _ L).
  - rewrite <- app_assoc. apply enc_start; [exact He|].
    cbn [forallb] in Hl. apply andb_prop in Hl as [? _]. assumption.
Qed.

Lemma enc_fields_pos fs : forall f ds,
  (1 <= length (enc_fields L env f fs ds))%nat.
Proof.
  pose proof (l_stop _ _ _ L) as Hs.
  induction fs as [|[x|] fs IH]; intros f [|d ds]; cbn [enc_fields]; auto.
  rewrite app_length. pose proof (l_fbeg _ _ _ L f (f_id d) (code (f_ty d))
    (fold_bool (f_ty d) x)). lia.
Qed.

Lemma enc_pos c t v : epos L c -> wfd (dok L) env SL CL t v = true ->
  (1 <= length (enc L env c t v))%nat.
Proof.
  intros Hc Hwf.
  destruct t; destruct v; try discriminate Hwf;
    try (apply (l_base _ _ _ L); auto; fail).
  - rewrite enc_list, app_length.
    pose proof (l_lbeg _ _ _ L c (code t) (Z.of_nat (length l))). lia.
  - rewrite enc_set, app_length.
    pose proof (l_lbeg _ _ _ L c (code t) (Z.of_nat (length l))). lia.
  - rewrite enc_map, app_length.
    pose proof (l_mbeg _ _ _ L c (code t1) (code t2) (Z.of_nat (length l))).
    lia.
  - rewrite wf_struct in Hwf. apply andb_prop in Hwf as [Hn Hf].
    apply Nat.eqb_eq in Hn. subst n0.
    destruct (nth_error env n) as [ds|] eqn:E; [|discriminate].
    rewrite (enc_struct L env _ n n fs ds E), app_length.
    pose proof (enc_fields_pos fs (inS L c) ds). lia.
Qed.

Lemma loop_elems {A B} d et l (f : A -> M X A) (h : A -> value -> A)
    (k : A -> M X B) w (F : nat) :
  forallb (wfd (dok L) env SL CL et) l = true ->
  (forall x, In x l -> forall e a, epos L e ->
     (length (enc L env e et x) <= F)%nat ->
     RD d (okT L) e (nxt L e) (enc L env e et x) (f a) (h a x)) ->
  forall fuel c e a, lpos L c e -> (length l <= fuel)%nat ->
    (length (enc_elems L env e et l) <= F)%nat ->
    (forall e', lpos L c e' ->
       RD d anyT e' (nxt L c) (e_lend L) (k (fold_left h l a)) w) ->
    RD d anyT e (nxt L c) (enc_elems L env e et l)
       (bind (repeatM fuel (Z.of_nat (length l)) f a) k) w.
Proof.
  induction l as [|x l IH]; intros Hwf Hf fuel c e a He Hfuel HF Hk.
  - cbn [enc_elems length]. destruct fuel; cbn [repeatM];
      (change (Z.of_nat 0 <=? 0) with true; cbn [fold_left] in Hk;
       exact (Hk e He)).
  - cbn [forallb] in Hwf. apply andb_prop in Hwf as [Hw1 Hw2].
    cbn [length] in Hfuel. destruct fuel as [|fuel]; [lia|].
    cbn [enc_elems] in *. rewrite app_length in HF.
    assert (Hepos : epos L e) by (eapply p_Le; eauto).
    assert (R1 : RD d (okT L) e (nxt L e) (enc L env e et x) (f a) (h a x)).
    { apply Hf; auto; [left; reflexivity|lia]. }
    assert (R2 : RD d anyT (nxt L e) (nxt L c) (enc_elems L env (nxt L e) et l)
              (bind (repeatM fuel (Z.of_nat (length l)) f (h a x)) k) w).
    { apply IH; auto; try lia.
      - intros; apply Hf; auto. right; assumption.
      - apply (p_Ln _ _ _ L); assumption. }
    intros tail _ s i o Hs.
    assert (HQ : forall t, anyT t ->
              okT L (enc_elems L env (nxt L e) et l ++ t)).
    { intros t _. destruct l as [|y l]; cbn [enc_elems].
      - apply (t_lend _ _ _ L).
      - rewrite <- app_assoc. apply enc_start; auto.
        cbn [forallb] in Hw2. apply andb_prop in Hw2 as [? _]. assumption. }
    pose proof (Rd_bind _ _ _ _ _ _ _ _ _ _
      (fun a' => bind (repeatM fuel (Z.of_nat (length l)) f a') k) _ _
      R1 HQ R2 tail I s i o Hs) as (x' & i' & E & R).
    exists x', i'. split; [|exact R]. rewrite <- E.
    cbn [length]. cbn [repeatM].
    destruct (Z.of_nat (S (length l)) <=? 0) eqn:G; [lia|].
    replace (Z.of_nat (S (length l)) - 1) with (Z.of_nat (length l)) by lia.
    unfold bind. destruct (f a _) as [[|e0|] s1]; reflexivity.
Qed.

Lemma loop_items {A B} d kt vt l (f : A -> M X A) (h : A -> value * value -> A)
    (k : A -> M X B) w (F : nat) :
  forallb (fun kv => match kv with
                     | (k, x) => wfd (dok L) env SL CL kt k && wfd (dok L) env SL CL vt x
                     end) l = true ->
  (forall kv, In kv l -> forall c e a, mpos L c e ->
     (length (enc L env e kt (fst kv)) <= F)%nat ->
     (length (enc L env (nxt L e) vt (snd kv)) <= F)%nat ->
     RD d (okT L) e (nxt L (nxt L e))
        (enc L env e kt (fst kv) ++ enc L env (nxt L e) vt (snd kv))
        (f a) (h a kv)) ->
  forall fuel c e a, mpos L c e -> (length l <= fuel)%nat ->
    (length (enc_items L env e kt vt l) <= F)%nat ->
    (forall e', mpos L c e' ->
       RD d anyT e' (nxt L c) (e_mend L) (k (fold_left h l a)) w) ->
    RD d anyT e (nxt L c) (enc_items L env e kt vt l)
       (bind (repeatM fuel (Z.of_nat (length l)) f a) k) w.
Proof.
  induction l as [|[kx x] l IH]; intros Hwf Hf fuel c e a He Hfuel HF Hk.
  - cbn [enc_items length]. destruct fuel; cbn [repeatM];
      (change (Z.of_nat 0 <=? 0) with true; cbn [fold_left] in Hk;
       exact (Hk e He)).
  - cbn [forallb] in Hwf. apply andb_prop in Hwf as [Hw1 Hw2].
    cbn [length] in Hfuel. destruct fuel as [|fuel]; [lia|].
    cbn [enc_items] in *. rewrite !app_length in HF.
    assert (R1 := Hf (kx, x) (or_introl eq_refl) c e a He). cbn [fst snd] in R1.
    specialize (R1 ltac:(lia) ltac:(lia)).
    assert (R2 : RD d anyT (nxt L (nxt L e)) (nxt L c)
              (enc_items L env (nxt L (nxt L e)) kt vt l)
              (bind (repeatM fuel (Z.of_nat (length l)) f (h a (kx, x))) k) w).
    { apply IH; auto; try lia.
      - intros; eapply Hf; eauto. right; assumption.
      - apply (p_Mn _ _ _ L); assumption. }
    intros tail _ s i o Hs.
    assert (HQ : forall t, anyT t ->
              okT L (enc_items L env (nxt L (nxt L e)) kt vt l ++ t)).
    { intros t _. destruct l as [|[ky y] l]; cbn [enc_items].
      - apply (t_mend _ _ _ L).
      - rewrite <- app_assoc. apply enc_start.
        + eapply p_Mv; eauto.
        + cbn [forallb] in Hw2. apply andb_prop in Hw2 as [Hw2 _].
          apply andb_prop in Hw2 as [? _]. assumption. }
    rewrite app_assoc in Hs.
    pose proof (Rd_bind _ _ _ _ _ _ _ _ _ _
      (fun a' => bind (repeatM fuel (Z.of_nat (length l)) f a') k) _ _
      R1 HQ R2 tail I s i o Hs) as (x' & i' & E & R).
    exists x', i'. split; [|exact R]. rewrite <- E.
    cbn [length]. cbn [repeatM].
    destruct (Z.of_nat (S (length l)) <=? 0) eqn:G; [lia|].
    replace (Z.of_nat (S (length l)) - 1) with (Z.of_nat (length l)) by lia.
    unfold bind. destruct (f a _) as [[|e0|] s1]; reflexivity.
Qed.

Lemma enc_elems_count et l : forall c e, lpos L c e ->
  forallb (wfd (dok L) env SL CL et) l = true ->
  (length l <= length (enc_elems L env e et l))%nat.
Proof.
  induction l as [|x l IH]; intros c e He Hwf; cbn [enc_elems length]; [lia|].
  cbn [forallb] in Hwf. apply andb_prop in Hwf as [Hw1 Hw2].
  rewrite app_length.
  pose proof (enc_pos e et x (p_Le _ _ _ L _ _ He) Hw1).
  pose proof (IH c (nxt L e) (p_Ln _ _ _ L _ _ He) Hw2). lia.
Qed.

Lemma enc_items_count kt vt l : forall c e, mpos L c e ->
  forallb (fun kv => match kv with
                     | (k, x) => wfd (dok L) env SL CL kt k && wfd (dok L) env SL CL vt x
                     end) l = true ->
  (length l <= length (enc_items L env e kt vt l))%nat.
Proof.
  induction l as [|[k x] l IH]; intros c e He Hwf; cbn [enc_items length];
    [lia|].
  cbn [forallb] in Hwf. apply andb_prop in Hwf as [Hw1 Hw2].
  apply andb_prop in Hw1 as [Hwk Hwx].
  rewrite !app_length.
  pose proof (enc_pos e kt k (p_Mk _ _ _ L _ _ He) Hwk).
  pose proof (IH c _ (p_Mn _ _ _ L _ _ He) Hw2). lia.
Qed.

End Loops.

(** A position where a value may be read. *)
Definition rpos (c : C L) (t : ty) (v : value) : Prop :=
  match t, v with
  | TStruct _, _ => spos L c
  | _, VBool b => bpos L c b
  | _, _ => vpos L c
  end.

Definition tailQ (t : ty) : list byte -> Prop :=
  match t with TStruct _ => anyT | _ => okT L end.

Lemma rpos_epos c t v : epos L c -> rpos c t v.
Proof.
  intros H. pose proof (p_ev _ _ _ L c H). pose proof (p_vs _ _ _ L c H0).
  pose proof (fun b => p_eb _ _ _ L c b H).
  destruct t; destruct v; cbn; auto.
Qed.

Lemma rpos_field env c f id t v : fpos L c f -> wfd (dok L) env SL CL t v = true ->
  rpos (inF L f id (fold_bool t v)) t v.
Proof.
  intros H Hwf. pose proof (p_F _ _ _ L c f id H) as H0.
  pose proof (p_vs _ _ _ L _ H0).
  pose proof (fun b => p_Fb _ _ _ L c f id b H).
  destruct t; destruct v; try discriminate Hwf; cbn; auto.
Qed.

Lemma fold_bool_iff env t v : wfd (dok L) env SL CL t v = true ->
  (t = TBool <-> fold_bool t v <> None).
Proof.
  intros Hwf.
  destruct t; destruct v; try discriminate Hwf; cbn; split; congruence.
Qed.

Lemma tailQ_weak t d {A} c c' bs (m : M X A) v :
  RD d (tailQ t) c c' bs m v -> RD d (okT L) c c' bs m v.
Proof.
  intros H. eapply Rd_weak; [exact H|]. destruct t; cbn; auto; intros; exact I.
Qed.

Lemma code_not_stop t : (code t =? T_STOP) = false.
Proof. destruct t; reflexivity. Qed.

(** * Skipping *)

Section Skip.
Variable env : schema.
Hypothesis Henv : schema_okd (idok L) env.
Variable F : nat.

Lemma skip_code fuel k t : skip P fuel (S k) (code t) =
  match t with
  | TBool => readBool P ;;; ret tt
  | TByte => readByte P ;;; ret tt
  | TI16 => readI16 P ;;; ret tt
  | TI32 => readI32 P ;;; ret tt
  | TI64 => readI64 P ;;; ret tt
  | TDouble => readDouble P ;;; ret tt
  | TString | TBinary => readString P ;;; ret tt
  | TUuid => readUuid P ;;; ret tt
  | TStruct _ =>
      readStructBegin P ;;;
      skip_fields P fuel (skip P fuel k) ;;;
      readStructEnd P
  | TMap _ _ =>
      '(ktype, vtype, size) <- readMapBegin P ;;
      repeatM fuel size
        (fun _ : unit => skip P fuel k ktype ;;; skip P fuel k vtype) tt ;;;
      readMapEnd P
  | TSet _ =>
      '(etype, size) <- readSetBegin P ;;
      repeatM fuel size (fun _ : unit => skip P fuel k etype) tt ;;;
      readSetEnd P
  | TList _ =>
      '(etype, size) <- readListBegin P ;;
      repeatM fuel size (fun _ : unit => skip P fuel k etype) tt ;;;
      readListEnd P
  end.
Proof. destruct t; reflexivity. Qed.

(** A read whose result is dropped. *)
Lemma Rd_drop {A} d Q c c' bs (m : M X A) v :
  RD d Q c c' bs m v -> RD d Q c c' bs (m ;;; ret tt) tt.
Proof. intros H. apply (Rd_map _ _ _ _ _ _ _ _ (fun _ => tt) H). Qed.

Lemma Rd_unmap {A B} d Q c c' bs (m : M X A) (f : A -> B) v :
  RD d Q c c' bs (bind m (fun a => ret (f a))) v ->
  RD d Q c c' bs (m ;;; ret tt) tt.
Proof.
  intros H tail Ht x i o Hx. destruct (H tail Ht x i o Hx) as (x1 & i1 & E & R).
  exists x1, i1. split; [|exact R]. revert E. unfold bind, ret.
  destruct (m _) as [[a|e|] s]; intros E; try discriminate E.
  injection E as _ ->. reflexivity.
Qed.

Lemma vdepth_struct n fs k : (vdepth (VStruct n fs) <= S k)%nat ->
  Forall (fun f => match f with
                   | Some x => (vdepth x <= k)%nat | None => True end) fs.
Proof.
  cbn [vdepth]. intros H.
  assert (H' : (fold_right (fun f a => match f with
                   | Some x => Nat.max (vdepth x) a
                   | None => a end) O fs <= k)%nat) by lia.
  clear H. induction fs as [|[x|] fs IH]; constructor;
    cbn [fold_right] in *; auto; try lia; apply IH; lia.
Qed.

Lemma vdepth_map l k : (vdepth (VMap l) <= S k)%nat ->
  Forall (fun kv => (vdepth (fst kv) <= k)%nat /\ (vdepth (snd kv) <= k)%nat) l.
Proof.
  cbn [vdepth]. intros H.
  assert (H' : (fold_right (fun kv a => match kv with
     | (k, x) => Nat.max (Nat.max (vdepth k) (vdepth x)) a end) O l <= k)%nat)
    by lia.
  clear H. induction l as [|[k' x] l IH]; constructor;
    cbn [fold_right fst snd] in *; [lia|apply IH; lia].
Qed.

Lemma skip_fields_enc d (sk : Z -> M X unit) fs : forall ds,
  Forall (fun f => match f with
    | Some x => forall t c, rpos c t x -> wfd (dok L) env SL CL t x = true ->
        (length (enc L env c t x) <= F)%nat ->
        RD d (tailQ t) c (nxt L c) (enc L env c t x) (sk (code t)) tt
    | None => True end) fs ->
  forall c f fuel, spos L c -> fpos L c f ->
    (forall dd, In dd ds -> idok L (f_id dd) = true) ->
    wf_fields (D := dok L) env SL CL fs ds = true ->
    (length (enc_fields L env f fs ds) <= F)%nat ->
    (length (enc_fields L env f fs ds) <= fuel)%nat ->
    RD d anyT f (nxt L c) (enc_fields L env f fs ds)
       (skip_fields P fuel sk ;;; readStructEnd P) tt.
Proof.
  induction fs as [|[x|] fs IH]; intros [|dd ds] Hfs c f fuel Hc Hf Hid Hwf HF
    Hfuel; cbn [wf_fields] in Hwf; try discriminate.
  - pose proof (enc_fields_pos env [] f []) as Hpos.
    destruct fuel as [|fuel]; [lia|]. cbn [enc_fields skip_fields].
    intros tail _ s i o Hs.
    destruct (r_stop _ _ _ L c f Hf tail) as [z Hz].
    pose proof (r_send _ _ _ L c f Hc Hf) as He.
    apply (Rd_D _ _ _ _ _ _ _ d) in Hz. apply (Rd_D _ _ _ _ _ _ _ d) in He.
    rewrite <- app_assoc in Hs.
    destruct (Hz _ eq_refl s i o Hs) as (x1 & i1 & E1 & R1).
    destruct (He tail I x1 i1 o R1) as (x2 & i2 & E2 & R2).
    exists x2, i2. split; [|exact R2].
    unfold bind. rewrite E1.
    change (T_STOP =? T_STOP) with true. cbn [ret]. exact E2.
  - apply andb_prop in Hwf as [Hw1 Hw2].
    inversion Hfs as [|? ? Hx Hfs2]; subst.
    assert (Hid1 := Hid dd (or_introl eq_refl)).
    assert (Hid2 : forall d0, In d0 ds ->
              idok L (f_id d0) = true)
      by (intros; apply Hid; right; assumption).
    cbn [enc_fields] in *. set (ob := fold_bool (f_ty dd) x) in *.
    rewrite !app_length in HF, Hfuel.
    pose proof (l_fbeg _ _ _ L f (f_id dd) (code (f_ty dd)) ob) as Hl1.
    destruct fuel as [|fuel]; [lia|].
    assert (R1 := r_fbeg _ _ _ L c f (f_id dd) (f_ty dd) ob Hf Hid1
                    (fold_bool_iff env _ _ Hw1)).
    assert (R2 : RD d (okT L) (inF L f (f_id dd) ob)
              (nxt L (inF L f (f_id dd) ob))
              (enc L env (inF L f (f_id dd) ob) (f_ty dd) x)
              (sk (code (f_ty dd))) tt).
    { apply (tailQ_weak (f_ty dd)). apply Hx; auto; [|lia].
      eapply rpos_field; eauto. }
    assert (R3 := r_fend _ _ _ L c f (f_id dd) ob Hf).
    assert (R4 := IH ds Hfs2 c (aft L f (f_id dd)) fuel Hc
                    (p_fA _ _ _ L _ _ _ Hf) Hid2 Hw2 ltac:(lia) ltac:(lia)).
    apply (Rd_D _ _ _ _ _ _ _ d) in R1. apply (Rd_D _ _ _ _ _ _ _ d) in R3.
    assert (R34 := Rd_bind _ _ _ _ _ _ _ _ _ _ (fun _ =>
       skip_fields P fuel sk ;;; readStructEnd P) _ _ R3 (fun _ _ => I) R4).
    assert (R234 := Rd_bind _ _ _ _ _ _ _ _ _ _ (fun _ =>
       readFieldEnd P ;;; skip_fields P fuel sk ;;; readStructEnd P) _ _ R2
       ltac:(intros t _; rewrite <- app_assoc; apply (t_fend _ _ _ L)) R34).
    assert (R := Rd_bind _ _ _ _ _ _ _ _ _ _ (fun _ =>
       sk (code (f_ty dd)) ;;;
       readFieldEnd P ;;; skip_fields P fuel sk ;;; readStructEnd P) _ _ R1
       (fun _ _ => I) R234).
    intros tail Ht s i o Hs. destruct (R tail Ht s i o Hs) as (x1 & i1 & E1 & Q1).
    destruct (R1 _ I s i o ltac:(rewrite <- app_assoc in Hs; exact Hs))
      as (x0 & i0 & E0 & _).
    exists x1, i1. split; [|exact Q1]. rewrite <- E1.
    unfold bind. cbn [skip_fields]. unfold bind.
    rewrite E0. cbn beta iota.
    rewrite code_not_stop.
    destruct (sk _ _) as [[[]|e0|] s2]; try reflexivity.
    destruct (readFieldEnd P s2) as [[[]|e0|] s3]; reflexivity.
  - apply andb_prop in Hwf as [Hw1 Hw2].
    inversion Hfs as [|? ? Hx Hfs2]; subst.
    cbn [enc_fields] in *.
    apply IH; auto. intros; apply Hid; right; assumption.
Qed.

Theorem skip_enc v : forall d k t c, rpos c t v ->
  wfd (dok L) env SL CL t v = true -> (vdepth v <= k)%nat ->
  (length (enc L env c t v) <= F)%nat ->
  all_bin (skbin L) v = true ->
  RD d (tailQ t) c (nxt L c) (enc L env c t v) (skip P F k (code t)) tt.
Proof.
  induction v using value_rect'; intros d k t c Hpos Hwf Hk HF Hbin.
  1-6: assert (Hb : base_ty t = true)
         by (destruct t; try reflexivity; discriminate Hwf);
       rewrite wf_base in Hwf by assumption;
       destruct k as [|k]; [cbn [vdepth] in Hk; lia|];
       match goal with |- RD _ _ _ _ (enc _ _ _ _ ?v) _ _ =>
         replace (enc L env c t v) with (e_base L c t v)
           by (destruct t; try reflexivity; discriminate Hb);
         assert (Rb := r_base _ _ _ L c t v)
       end;
       rewrite skip_code;
       destruct t; try discriminate Hwf;
       cbn [rpos tailQ] in *;
       try (specialize (Rb Hpos Hb Hwf); apply (Rd_D _ _ _ _ _ _ _ d) in Rb;
            cbn [read_base] in Rb; exact (Rd_unmap _ _ _ _ _ _ _ _ Rb)).
  - (* binary read as a string *)
    cbn [all_bin] in Hbin.
    destruct (r_skbin _ _ _ L c b Hpos Hwf Hbin) as [s Hs].
    apply (Rd_D _ _ _ _ _ _ _ d) in Hs. exact (Rd_drop _ _ _ _ _ _ _ Hs).
  - destruct t as [| | | | | | | | |et| | |]; try discriminate Hwf.
    cbn [wfd] in Hwf. apply andb_prop in Hwf as [Hn Hl]. cbn [rpos tailQ] in *.
    destruct k as [|k]; [cbn [vdepth] in Hk; lia|].
    rewrite enc_list in *. rewrite skip_code. unfold len_le in Hn.
    rewrite app_length in HF. apply (Rd_weak _ _ anyT); [|intros; exact I].
    assert (Hlp := p_L _ _ _ L c Hpos).
    pose proof (enc_elems_count env et l c _ Hlp Hl).
    eapply Rd_bind; [apply Rd_D, r_lbeg; [exact Hpos|lia]|intros; apply elems_start; assumption|].
    cbn beta iota.
    apply loop_elems with (h := fun _ _ => tt) (F := F); auto; try lia.
    + intros x Hx e a He Hle. apply (tailQ_weak et).
      rewrite Forall_forall in H. rewrite forallb_forall in Hl.
      cbn [all_bin] in Hbin. rewrite forallb_forall in Hbin.
      apply H; auto.
      * apply rpos_epos; assumption.
      * apply (fold_max_le' vdepth l); auto. cbn [vdepth] in Hk. lia.
    + intros e' He'. apply Rd_D. cbn beta.
      eapply r_lend; eauto.
  - destruct t as [| | | | | | | | | |et| |]; try discriminate Hwf.
    cbn [wfd] in Hwf. apply andb_prop in Hwf as [Hn Hl].
    apply andb_prop in Hn as [Hn _]. apply andb_prop in Hn as [Hn _].
    cbn [rpos tailQ] in *.
    destruct k as [|k]; [cbn [vdepth] in Hk; lia|].
    rewrite enc_set in *. rewrite skip_code. unfold len_le in Hn.
    rewrite app_length in HF. apply (Rd_weak _ _ anyT); [|intros; exact I].
    assert (Hlp := p_L _ _ _ L c Hpos).
    pose proof (enc_elems_count env et l c _ Hlp Hl).
    eapply Rd_bind; [apply Rd_D, r_tbeg; [exact Hpos|lia]|intros; apply elems_start; assumption|].
    cbn beta iota.
    apply loop_elems with (h := fun _ _ => tt) (F := F); auto; try lia.
    + intros x Hx e a He Hle. apply (tailQ_weak et).
      rewrite Forall_forall in H. rewrite forallb_forall in Hl.
      cbn [all_bin] in Hbin. rewrite forallb_forall in Hbin.
      apply H; auto.
      * apply rpos_epos; assumption.
      * apply (fold_max_le' vdepth l); auto. cbn [vdepth] in Hk. lia.
    + intros e' He'. apply Rd_D. cbn beta.
      eapply r_tend; eauto.
  - destruct t as [| | | | | | | | | | |kt vt|]; try discriminate Hwf.
    cbn [wfd] in Hwf. apply andb_prop in Hwf as [Hn Hl].
    apply andb_prop in Hn as [Hn _]. apply andb_prop in Hn as [Hn _].
    cbn [rpos tailQ] in *.
    destruct k as [|k]; [cbn [vdepth] in Hk; lia|].
    pose proof (vdepth_map l k Hk) as Hvd.
    rewrite enc_map in *. rewrite skip_code. unfold len_le in Hn.
    rewrite app_length in HF. apply (Rd_weak _ _ anyT); [|intros; exact I].
    assert (Hlp := p_M _ _ _ L c Hpos).
    pose proof (enc_items_count env kt vt l c _ Hlp Hl).
    eapply Rd_bind; [apply Rd_D, r_mbeg; [exact Hpos|lia]|intros; exact I|].
    assert (Hmr : exists a b, mret L (code kt) (code vt) (Z.of_nat (length l))
              = (a, b, Z.of_nat (length l))
              /\ (l <> [] -> a = code kt /\ b = code vt)).
    { destruct l as [|kv l].
      - pose proof (mret_zero _ _ _ L (code kt) (code vt)) as Hz.
        cbn [length]. change (Z.of_nat 0) with 0.
        destruct (mret L (code kt) (code vt) 0) as [[a b] n]. cbn in Hz. subst n.
        exists a, b. split; [reflexivity|congruence].
      - exists (code kt), (code vt). split; [|auto].
        apply (mret_pos _ _ _ L). cbn [length]. lia. }
    destruct Hmr as (ka & va & -> & Hka).
    cbn beta iota.
    apply loop_items with (h := fun _ _ => tt) (F := F); auto; try lia.
    + intros [kx x] Hx c' e a He Hle1 Hle2. cbn [fst snd] in *.
      rewrite Forall_forall in H, Hvd. rewrite forallb_forall in Hl.
      cbn [all_bin] in Hbin. rewrite forallb_forall in Hbin.
      specialize (H _ Hx). specialize (Hl _ Hx). specialize (Hbin _ Hx).
      specialize (Hvd _ Hx). cbn [fst snd] in *.
      destruct Hka as [-> ->]; [intros ->; destruct Hx|].
      apply andb_prop in Hl as [Hlk Hlx]. apply andb_prop in Hbin as [Hbk Hbx].
      destruct H as [IHk IHx]. destruct Hvd as [Hvk Hvx].
      eapply Rd_bind.
      * apply (tailQ_weak kt). apply IHk; auto.
        apply rpos_epos. eapply p_Mk; eauto.
      * intros t _. apply enc_start; auto. eapply p_Mk; eauto.
      * apply (tailQ_weak vt). apply IHx; auto.
        apply rpos_epos. eapply p_Mv; eauto.
    + intros e' He'. apply Rd_D. cbn beta.
      eapply r_mend; eauto.
  - destruct t as [| | | | | | | | | | | |m]; try discriminate Hwf.
    rewrite wf_struct in Hwf. apply andb_prop in Hwf as [Hn Hf].
    apply Nat.eqb_eq in Hn. subst m. cbn [rpos tailQ] in *.
    destruct (nth_error env n) as [ds|] eqn:Eds; [|discriminate].
    destruct k as [|k]; [cbn [vdepth] in Hk; lia|].
    pose proof (vdepth_struct n fs k Hk) as Hvd.
    rewrite (enc_struct L env c n n fs ds Eds) in *. rewrite app_length in HF.
    rewrite skip_code.
    eapply Rd_bind; [apply Rd_D, r_sbeg; exact Hpos|intros; exact I|].
    apply skip_fields_enc; auto; try lia.
    + cbn [all_bin] in Hbin. rewrite forallb_forall in Hbin.
      rewrite Forall_forall in *. intros [x|] Hx; [|exact I].
      specialize (H _ Hx). specialize (Hvd _ Hx). specialize (Hbin _ Hx).
      cbn beta iota in *. intros; apply H; auto.
    + apply (p_fS _ _ _ L); assumption.
    + apply (Henv n ds Eds).
Qed.

End Skip.

(** * Reading *)

(** What the reader's field loop does to the attributes, given the fields the
    writer sent. *)
Fixpoint upd_fields (envW envR : schema) (dsR : list fielddef)
    (fs : list (option value)) (dsW : list fielddef)
    (acc : list (option value)) : list (option value) :=
  match fs, dsW with
  | Some x :: fs', d :: ds' =>
      upd_fields envW envR dsR fs' ds'
        (match find_field dsR (f_id d) with
         | Some (i, dR) =>
             if code (f_ty d) =? code (f_ty dR)
             then set_nth i (Some (proj envW envR (f_ty d) (f_ty dR) x)) acc
             else acc
         | None => acc
         end)
  | None :: fs', _ :: ds' => upd_fields envW envR dsR fs' ds' acc
  | _, _ => acc
  end.

Fixpoint look (envW envR : schema) (dR : fielddef) (dflt : option value)
    (fs : list (option value)) (ds : list fielddef) : option value :=
  match fs, ds with
  | f :: fs', d :: ds' =>
      match f with
      | Some x =>
          if (f_id d =? f_id dR) && (code (f_ty d) =? code (f_ty dR))
          then Some (proj envW envR (f_ty d) (f_ty dR) x)
          else look envW envR dR dflt fs' ds'
      | None => look envW envR dR dflt fs' ds'
      end
  | _, _ => dflt
  end.

Lemma proj_struct envW envR a m n fs dsW dsR :
  nth_error envW n = Some dsW -> nth_error envR m = Some dsR ->
  proj envW envR (TStruct a) (TStruct m) (VStruct n fs) =
  VStruct m (map (fun dR => look envW envR dR (f_def dR) fs dsW) dsR).
Proof.
  intros H1 H2. cbn [proj]. rewrite H1, H2. f_equal. apply map_ext.
  intros dR. clear H1 H2. revert dsW.
  induction fs as [|[x|] fs IH]; intros [|d ds]; cbn [look]; try reflexivity;
    [|apply IH].
  destruct (_ && _); [reflexivity|apply IH].
Qed.

Lemma find_field_None ds id : find_field ds id = None ->
  forall d, In d ds -> f_id d <> id.
Proof.
  induction ds as [|d ds IH]; intros H d' Hd; [destruct Hd|].
  destruct Hd as [->|Hd]; cbn [find_field] in H.
  - destruct (id =? f_id d') eqn:E; [discriminate|]. lia.
  - destruct (id =? f_id d) eqn:E; [discriminate|].
    destruct (find_field ds id) as [[i d0]|]; [discriminate|]. auto.
Qed.

Lemma find_field_In ds id i d : find_field ds id = Some (i, d) ->
  In d ds /\ f_id d = id.
Proof.
  revert i; induction ds as [|d0 ds IH]; intros i H; cbn [find_field] in H.
  - discriminate.
  - destruct (id =? f_id d0) eqn:E.
    + injection H as <- <-. split; [left; reflexivity|lia].
    + destruct (find_field ds id) as [[j d1]|]; [|discriminate].
      injection H as <- ->. destruct (IH j eq_refl). split; [right|]; assumption.
Qed.

Lemma set_nth_length {A} i (a : A) l : length (set_nth i a l) = length l.
Proof. revert i; induction l; intros [|i]; cbn; auto. Qed.

Lemma map_set_nth {B} (G : fielddef * option value -> B) ds id i d y :
  find_field ds id = Some (i, d) -> NoDup (map f_id ds) ->
  forall acc, length acc = length ds ->
  map G (combine ds (set_nth i y acc)) =
  map (fun p => G (fst p, if f_id (fst p) =? id then y else snd p))
      (combine ds acc).
Proof.
  revert i; induction ds as [|d0 ds IH]; intros i H Hnd acc Hlen;
    cbn [find_field] in H; [discriminate|].
  destruct acc as [|a acc]; [discriminate|].
  cbn [map] in Hnd. inversion Hnd as [|? ? Hni Hnd']; subst.
  destruct (id =? f_id d0) eqn:E.
  - injection H as <- <-. cbn [set_nth combine map fst snd].
    replace (f_id d0 =? id) with true by lia. f_equal.
    apply map_ext_in. intros [d1 b] Hin. cbn [fst snd].
    apply in_combine_l in Hin.
    destruct (f_id d1 =? id) eqn:E1; [|reflexivity].
    exfalso. apply Hni. apply in_map_iff. exists d1. split; [lia|assumption].
  - destruct (find_field ds id) as [[j d1]|] eqn:Ef; [|discriminate].
    injection H as <- ->. cbn [set_nth combine map fst snd].
    replace (f_id d0 =? id) with false by lia. f_equal.
    apply IH; auto.
Qed.

Lemma look_none envW envR dR dflt fs ds :
  ~ In (f_id dR) (map f_id ds) -> look envW envR dR dflt fs ds = dflt.
Proof.
  revert ds; induction fs as [|[x|] fs IH]; intros [|d ds] H; cbn [look];
    try reflexivity; cbn [map] in H.
  - destruct (f_id d =? f_id dR) eqn:E.
    + exfalso. apply H. left. lia.
    + cbn [andb]. apply IH. intros Hi. apply H. right. assumption.
  - apply IH. intros Hi. apply H. right. assumption.
Qed.

Lemma upd_fields_look envW envR dsR : NoDup (map f_id dsR) ->
  forall fs dsW acc, NoDup (map f_id dsW) -> length acc = length dsR ->
  upd_fields envW envR dsR fs dsW acc =
  map (fun p => look envW envR (fst p) (snd p) fs dsW) (combine dsR acc).
Proof.
  intros HndR. induction fs as [|[x|] fs IH]; intros [|d ds] acc Hnd Hlen;
    cbn [upd_fields look].
  1,2,3,5:
    (clear -Hlen; revert acc Hlen; induction dsR as [|d0 ds0 IH2];
      intros [|a acc] Hlen; try discriminate; cbn [combine map snd];
      [reflexivity|f_equal; apply IH2; cbn in Hlen; lia]).
  - cbn [map] in Hnd. inversion Hnd as [|? ? Hni Hnd']; subst.
    destruct (find_field dsR (f_id d)) as [[i dR]|] eqn:Ef.
    + destruct (find_field_In _ _ _ _ Ef) as [HiR HidR].
      destruct (code (f_ty d) =? code (f_ty dR)) eqn:Ec.
      * rewrite IH by (rewrite ?set_nth_length; auto).
        rewrite (map_set_nth _ dsR (f_id d) i dR) by auto.
        apply map_ext_in. intros [d1 a] Hin. cbn [fst snd].
        apply in_combine_l in Hin.
        destruct (f_id d1 =? f_id d) eqn:E1.
        -- assert (d1 = dR).
           { clear -HndR Hin HiR HidR E1.
             assert (Hid : f_id d1 = f_id dR) by lia. clear E1 HidR.
             induction dsR as [|d0 ds0 IH]; [destruct Hin|].
             cbn [map] in HndR. inversion HndR as [|? ? Hn1 Hn2]; subst.
             destruct Hin as [->|Hin]; destruct HiR as [->|HiR]; auto.
             - exfalso. apply Hn1. rewrite Hid. apply in_map. assumption.
             - exfalso. apply Hn1. rewrite <- Hid. apply in_map. assumption. }
           subst d1. rewrite look_none by (rewrite HidR; assumption).
           replace (f_id d =? f_id dR) with true by lia.
           rewrite Ec. reflexivity.
        -- replace (f_id d =? f_id d1) with false by lia. reflexivity.
      * rewrite IH by auto. apply map_ext_in. intros [d1 a] Hin. cbn [fst snd].
        apply in_combine_l in Hin.
        destruct (f_id d =? f_id d1) eqn:E1; [|reflexivity].
        assert (d1 = dR).
        { clear -HndR Hin HiR HidR E1.
          assert (Hid : f_id d1 = f_id dR) by lia. clear E1 HidR.
          induction dsR as [|d0 ds0 IH]; [destruct Hin|].
          cbn [map] in HndR. inversion HndR as [|? ? Hn1 Hn2]; subst.
          destruct Hin as [->|Hin]; destruct HiR as [->|HiR]; auto.
          - exfalso. apply Hn1. rewrite Hid. apply in_map. assumption.
          - exfalso. apply Hn1. rewrite <- Hid. apply in_map. assumption. }
        subst d1. rewrite Ec. reflexivity.
    + rewrite IH by auto. apply map_ext_in. intros [d1 a] Hin. cbn [fst snd].
      apply in_combine_l in Hin. pose proof (find_field_None _ _ Ef d1 Hin).
      replace (f_id d =? f_id d1) with false by lia. reflexivity.
  - cbn [map] in Hnd. inversion Hnd as [|? ? Hni Hnd']; subst. apply IH; auto.
Qed.

Lemma find_field_find ds d : NoDup (map f_id ds) ->
  find (fun dR => (f_id d =? f_id dR) && (code (f_ty d) =? code (f_ty dR))) ds
  = match find_field ds (f_id d) with
    | Some (_, dR) => if code (f_ty d) =? code (f_ty dR) then Some dR else None
    | None => None
    end.
Proof.
  induction ds as [|d0 ds IH]; intros Hnd; cbn [find find_field];
    [reflexivity|].
  cbn [map] in Hnd. inversion Hnd as [|? ? Hni Hnd']; subst.
  rewrite IH by assumption.
  destruct (f_id d =? f_id d0) eqn:E; cbn [andb].
  - destruct (code (f_ty d) =? code (f_ty d0)) eqn:Ec; [reflexivity|].
    destruct (find_field ds (f_id d)) as [[i d1]|] eqn:Ef; [|reflexivity].
    exfalso. apply find_field_In in Ef as [Hi He]. apply Hni.
    replace (f_id d0) with (f_id d1) by lia. apply in_map. assumption.
  - destruct (find_field ds (f_id d)) as [[i d1]|]; reflexivity.
Qed.

Lemma map_combine_fresh {B} (g : fielddef -> option value -> B) ds :
  map (fun p => g (fst p) (snd p)) (combine ds (fresh ds)) =
  map (fun d => g d (f_def d)) ds.
Proof.
  unfold fresh. induction ds; cbn [map combine fst snd]; [reflexivity|].
  f_equal. assumption.
Qed.

Section Read.
Variables envW envR : schema.
Variable R : nat -> nat -> bool.
Hypothesis HenvW : schema_okd (idok L) envW.
Hypothesis HenvR : schema_okd (idok L) envR.
Hypothesis HR : compat_env envW envR R.
Variable F : nat.

Lemma proj_base a b v : base_ty a = true -> proj envW envR a b v = v.
Proof.
  destruct a; intros Ha; try discriminate; destruct b; destruct v; reflexivity.
Qed.

Lemma compat_code a b : compat R a b = true -> code a = code b.
Proof. destruct a; destruct b; intros H; try discriminate; reflexivity. Qed.

Lemma compat_base a b : base_ty a = true -> compat R a b = true -> a = b.
Proof. destruct a; destruct b; intros; try discriminate; reflexivity. Qed.

Lemma fold_snoc {A B} (g : A -> B) l acc :
  fold_left (fun a x => a ++ [g x]) l acc = acc ++ map g l.
Proof.
  revert acc; induction l; intros; cbn [fold_left map].
  - rewrite app_nil_r. reflexivity.
  - rewrite IHl, <- app_assoc. reflexivity.
Qed.

Lemma fold_set_add l : forall acc, nodup_keys l = true ->
  (forall x, In x l -> existsb (key_eqb x) acc = false) ->
  fold_left set_add l acc = acc ++ l.
Proof.
  induction l as [|x l IH]; intros acc Hnd Hacc; cbn [fold_left].
  - rewrite app_nil_r. reflexivity.
  - cbn [nodup_keys] in Hnd. apply andb_prop in Hnd as [H1 H2].
    unfold set_add at 2. rewrite (Hacc x) by (left; reflexivity).
    rewrite IH; auto.
    + rewrite <- app_assoc. reflexivity.
    + intros y Hy. rewrite existsb_app. rewrite (Hacc y) by (right; assumption).
      cbn [existsb]. rewrite orb_false_r. cbn [orb].
      destruct (key_eqb y x) eqn:E; [|reflexivity].
      exfalso. assert (existsb (fun y => key_eqb y x) l = true).
      { apply existsb_exists. exists y. auto. }
      rewrite H in H1. discriminate.
Qed.

Lemma dict_set_new acc k x : existsb (key_eqb k) (map fst acc) = false ->
  dict_set acc k x = acc ++ [(k, x)].
Proof.
  induction acc as [|[k' x'] acc IH]; intros H; cbn [dict_set]; [reflexivity|].
  cbn [map fst existsb] in H. apply orb_false_elim in H as [H1 H2].
  rewrite H1, IH by assumption. reflexivity.
Qed.

Lemma fold_dict_set (g : value * value -> value * value) l : forall acc,
  (forall kv, In kv l -> fst (g kv) = fst kv) ->
  nodup_keys (map fst l) = true ->
  (forall x, In x l -> existsb (key_eqb (fst x)) (map fst acc) = false) ->
  fold_left (fun a kv => dict_set a (fst (g kv)) (snd (g kv))) l acc
  = acc ++ map g l.
Proof.
  induction l as [|[k x] l IH]; intros acc Hg Hnd Hacc; cbn [fold_left map].
  - rewrite app_nil_r. reflexivity.
  - cbn [map fst nodup_keys] in Hnd. apply andb_prop in Hnd as [H1 H2].
    assert (Ek : fst (g (k, x)) = k) by (apply Hg; left; reflexivity).
    rewrite dict_set_new.
    2:{ rewrite Ek. apply (Hacc (k, x)). left; reflexivity. }
    rewrite IH; auto.
    + rewrite <- app_assoc. cbn [app]. do 2 f_equal.
      destruct (g (k, x)); reflexivity.
    + intros; apply Hg; right; assumption.
    + intros y Hy. rewrite map_app, existsb_app.
      rewrite (Hacc y) by (right; assumption).
      cbn [map fst existsb orb]. rewrite Ek, orb_false_r.
      destruct (key_eqb (fst y) k) eqn:E; [|reflexivity].
      exfalso. assert (existsb (fun y => key_eqb y k) (map fst l) = true).
      { apply existsb_exists. exists (fst y). split; [apply in_map|]; auto. }
      rewrite H in H1. discriminate.
Qed.

(** The dropped parts of a struct's fields can be skipped. *)
Fixpoint drop_fields (dsR : list fielddef) (k : nat) (fs : list (option value))
    (ds : list fielddef) : bool :=
  match fs, ds with
  | f :: fs', d :: ds' =>
      match f with
      | Some x =>
          match find (fun dR => (f_id d =? f_id dR)
                       && (code (f_ty d) =? code (f_ty dR))) dsR with
          | Some dR => drop_ok envW envR (skbin L) k (f_ty d) (f_ty dR) x
          | None => (vdepth x <=? k)%nat && all_bin (skbin L) x
          end
      | None => true
      end && drop_fields dsR k fs' ds'
  | _, _ => true
  end.

Lemma drop_struct k a m n fs dsW dsR :
  nth_error envW n = Some dsW -> nth_error envR m = Some dsR ->
  drop_ok envW envR (skbin L) k (TStruct a) (TStruct m) (VStruct n fs) =
  drop_fields dsR k fs dsW.
Proof.
  intros H1 H2. cbn [drop_ok]. rewrite H1, H2. clear H1 H2. revert dsW.
  induction fs as [|[x|] fs IH]; intros [|d ds]; cbn [drop_fields];
    try reflexivity; f_equal; apply IH.
Qed.

Lemma read_fields_enc {B} d dsR (rv : ty -> M X value)
    (k : list (option value) -> M X B) w fs :
  NoDup (map f_id dsR) ->
  forall dsW,
  compat_fields R dsW dsR ->
  Forall (fun f => match f with
    | Some x => forall t tR c, rpos c t x -> wfd (dok L) envW SL CL t x = true ->
        compat R t tR = true ->
        (length (enc L envW c t x) <= F)%nat ->
        drop_ok envW envR (skbin L) SKIP_DEPTH t tR x = true ->
        RD d (tailQ t) c (nxt L c) (enc L envW c t x) (rv tR)
           (proj envW envR t tR x)
    | None => True end) fs ->
  forall c f fuel acc, spos L c -> fpos L c f ->
    (forall dd, In dd dsW -> idok L (f_id dd) = true) ->
    wf_fields (D := dok L) envW SL CL fs dsW = true ->
    drop_fields dsR SKIP_DEPTH fs dsW = true ->
    (length (enc_fields L envW f fs dsW) <= F)%nat ->
    (length (enc_fields L envW f fs dsW) <= fuel)%nat ->
    k (upd_fields envW envR dsR fs dsW acc) = ret w ->
    RD d anyT f (nxt L c) (enc_fields L envW f fs dsW)
       (acc' <- read_fields P fuel F rv dsR acc ;;
        readStructEnd P ;;; k acc') w.
Proof.
  intros HndR.
  induction fs as [|[x|] fs IH]; intros [|dd ds] Hcf Hfs c f fuel acc Hc Hf Hid
    Hwf Hdr HF Hfuel Hk; cbn [wf_fields] in Hwf; try discriminate.
  - pose proof (enc_fields_pos envW [] f []) as Hpos.
    destruct fuel as [|fuel]; [lia|]. cbn [enc_fields read_fields].
    intros tail _ s i o Hs.
    destruct (r_stop _ _ _ L c f Hf tail) as [z Hz].
    pose proof (r_send _ _ _ L c f Hc Hf) as He.
    apply (Rd_D _ _ _ _ _ _ _ d) in Hz. apply (Rd_D _ _ _ _ _ _ _ d) in He.
    rewrite <- app_assoc in Hs.
    destruct (Hz _ eq_refl s i o Hs) as (x1 & i1 & E1 & R1).
    destruct (He tail I x1 i1 o R1) as (x2 & i2 & E2 & R2).
    exists x2, i2. split; [|exact R2].
    unfold bind. rewrite E1.
    change (T_STOP =? T_STOP) with true. cbn [ret]. rewrite E2.
    cbn [upd_fields] in Hk. rewrite Hk. reflexivity.
  - apply andb_prop in Hwf as [Hw1 Hw2].
    cbn [drop_fields] in Hdr. apply andb_prop in Hdr as [Hdr1 Hdr2].
    inversion Hfs as [|? ? Hx Hfs2]; subst.
    assert (Hid1 := Hid dd (or_introl eq_refl)).
    assert (Hid2 : forall d0, In d0 ds ->
              idok L (f_id d0) = true)
      by (intros; apply Hid; right; assumption).
    assert (Hcf2 : compat_fields R ds dsR)
      by (intros dW dR HiW; apply Hcf; right; assumption).
    cbn [enc_fields] in *. set (ob := fold_bool (f_ty dd) x) in *.
    rewrite !app_length in HF, Hfuel.
    pose proof (l_fbeg _ _ _ L f (f_id dd) (code (f_ty dd)) ob) as Hl1.
    destruct fuel as [|fuel]; [lia|].
    assert (R1 := r_fbeg _ _ _ L c f (f_id dd) (f_ty dd) ob Hf Hid1
                    (fold_bool_iff envW _ _ Hw1)).
    assert (R3 := r_fend _ _ _ L c f (f_id dd) ob Hf).
    apply (Rd_D _ _ _ _ _ _ _ d) in R1. apply (Rd_D _ _ _ _ _ _ _ d) in R3.
    assert (Hrp : rpos (inF L f (f_id dd) ob) (f_ty dd) x)
      by (eapply rpos_field; eauto).
    rewrite (find_field_find dsR dd HndR) in Hdr1.
    cbn [upd_fields] in Hk.
    (* how the value is consumed, and the attributes afterwards *)
    assert (Hstep : exists acc1 (m : M X unit),
      RD d (okT L) (inF L f (f_id dd) ob) (nxt L (inF L f (f_id dd) ob))
         (enc L envW (inF L f (f_id dd) ob) (f_ty dd) x) m tt
      /\ k (upd_fields envW envR dsR fs ds acc1) = ret w
      /\ forall s i o,
           rrep L (inF L f (f_id dd) ob) s i
             (enc L envW (inF L f (f_id dd) ob) (f_ty dd) x
              ++ e_fend L ++ o) ->
           forall oo,
           bind (fun s0 => (Ok (code (f_ty dd), f_id dd), s0))
             (fun p => let '(ftype, fid) := p in
                if ftype =? T_STOP then ret acc
                else match find_field dsR fid with
                 | Some (i, d) =>
                     if ftype =? code (f_ty d) then
                       v <- rv (f_ty d) ;;
                       readFieldEnd P ;;;
                       read_fields P fuel F rv dsR (set_nth i (Some v) acc)
                     else
                       skip P F SKIP_DEPTH ftype ;;;
                       readFieldEnd P ;;;
                       read_fields P fuel F rv dsR acc
                 | None =>
                     skip P F SKIP_DEPTH ftype ;;;
                     readFieldEnd P ;;;
                     read_fields P fuel F rv dsR acc
                 end) (mkst s i oo d)
           = (m ;;; readFieldEnd P ;;; read_fields P fuel F rv dsR acc1)
               (mkst s i oo d)).
    { assert (Hskip : (vdepth x <=? SKIP_DEPTH)%nat && all_bin (skbin L) x = true ->
        RD d (okT L) (inF L f (f_id dd) ob) (nxt L (inF L f (f_id dd) ob))
         (enc L envW (inF L f (f_id dd) ob) (f_ty dd) x)
         (skip P F SKIP_DEPTH (code (f_ty dd))) tt).
      { intros Hs. apply andb_prop in Hs as [Hs1 Hs2].
        apply (tailQ_weak (f_ty dd)). apply skip_enc; auto; lia. }
      destruct (find_field dsR (f_id dd)) as [[i dR]|] eqn:Ef.
      - destruct (find_field_In _ _ _ _ Ef) as [HiR HidR].
        destruct (code (f_ty dd) =? code (f_ty dR)) eqn:Ec.
        + assert (Hc1 : compat R (f_ty dd) (f_ty dR) = true).
          { apply Hcf; auto; [left; reflexivity|lia]. }
          assert (Rv : RD d (okT L) (inF L f (f_id dd) ob)
             (nxt L (inF L f (f_id dd) ob))
             (enc L envW (inF L f (f_id dd) ob) (f_ty dd) x) (rv (f_ty dR))
             (proj envW envR (f_ty dd) (f_ty dR) x)).
          { apply (tailQ_weak (f_ty dd)). apply Hx; auto. lia. }
          exists (set_nth i (Some (proj envW envR (f_ty dd) (f_ty dR) x)) acc),
                 (rv (f_ty dR) ;;; ret tt).
          split; [apply (Rd_drop _ _ _ _ _ _ _ Rv)|]. split; [exact Hk|].
          intros s i0 o Hs oo. unfold bind at 1. cbn beta iota.
          rewrite code_not_stop, Ef, Ec.
          destruct (Rv (e_fend L ++ o) ltac:(apply (t_fend _ _ _ L)) s i0 oo Hs)
            as (x1 & i1 & E1 & _).
          unfold bind. rewrite E1. reflexivity.
        + exists acc, (skip P F SKIP_DEPTH (code (f_ty dd))).
          split; [apply Hskip; exact Hdr1|]. split; [exact Hk|].
          intros s i0 o Hs oo. unfold bind at 1. cbn beta iota.
          rewrite code_not_stop, Ef, Ec. reflexivity.
      - exists acc, (skip P F SKIP_DEPTH (code (f_ty dd))).
        split; [apply Hskip; exact Hdr1|]. split; [exact Hk|].
        intros s i0 o Hs oo. unfold bind at 1. cbn beta iota.
        rewrite code_not_stop, Ef. reflexivity. }
    destruct Hstep as (acc1 & m & R2 & Hk1 & Heq).
    assert (R4 := IH ds Hcf2 Hfs2 c (aft L f (f_id dd)) fuel acc1 Hc
                    (p_fA _ _ _ L _ _ _ Hf) Hid2 Hw2 Hdr2 ltac:(lia)
                    ltac:(lia) Hk1).
    assert (R34 := Rd_bind _ _ _ _ _ _ _ _ _ _ (fun _ =>
       acc' <- read_fields P fuel F rv dsR acc1 ;; readStructEnd P ;;; k acc')
       _ _ R3 (fun _ _ => I) R4).
    assert (R234 := Rd_bind _ _ _ _ _ _ _ _ _ _ (fun _ =>
       readFieldEnd P ;;; acc' <- read_fields P fuel F rv dsR acc1 ;;
       readStructEnd P ;;; k acc') _ _ R2
       ltac:(intros t _; rewrite <- app_assoc; apply (t_fend _ _ _ L)) R34).
    intros tail Ht s i o Hs. rewrite <- app_assoc in Hs.
    destruct (R1 _ I s i o Hs) as (x1 & i1 & E1 & Q1).
    destruct (R234 tail Ht x1 i1 o Q1) as (x2 & i2 & E2 & Q2).
    exists x2, i2. split; [|exact Q2]. rewrite <- E2.
    rewrite <- !app_assoc in Q1. specialize (Heq x1 i1 _ Q1 o).
    cbn [read_fields]. rewrite bind_assoc, (bind_ok _ _ _ _ _ E1).
    cbn beta.
    match goal with |- bind ?t _ ?s0 = _ =>
      assert (Ht' : t s0 = (m ;;; readFieldEnd P ;;;
                            read_fields P fuel F rv dsR acc1) s0)
        by exact Heq
    end.
    unfold bind at 1. rewrite Ht'. unfold bind.
    destruct (m _) as [[[]|e0|] s2]; try reflexivity.
    destruct (readFieldEnd P s2) as [[[]|e0|] s3]; reflexivity.
  - apply andb_prop in Hwf as [Hw1 Hw2].
    inversion Hfs as [|? ? Hx Hfs2]; subst.
    cbn [enc_fields drop_fields upd_fields] in *.
    apply IH; auto.
    + intros dW dR HiW; apply Hcf; right; assumption.
    + intros; apply Hid; right; assumption.
Qed.


Lemma read_ty_struct rs fuel n : read_ty P rs fuel (TStruct n) = rs n.
Proof. reflexivity. Qed.

Theorem read_enc v : forall d tW tR c dfuel, 0 <= d ->
  compat R tW tR = true -> rpos c tW v -> wfd (dok L) envW SL CL tW v = true ->
  d + Z.of_nat (sdepth v) <= 64 -> (sdepth v <= dfuel)%nat ->
  (length (enc L envW c tW v) <= F)%nat ->
  drop_ok envW envR (skbin L) SKIP_DEPTH tW tR v = true ->
  RD d (tailQ tW) c (nxt L c) (enc L envW c tW v)
     (read_ty P (read_struct P envR dfuel F) F tR) (proj envW envR tW tR v).
Proof.
  induction v using value_rect';
    intros d tW tR c dfuel Hd0 Hcmp Hpos Hwf Hd Hdf HF Hdr.
  1-6: assert (Hb : base_ty tW = true)
         by (destruct tW; try reflexivity; discriminate Hwf);
       rewrite wf_base in Hwf by assumption;
       pose proof (compat_base _ _ Hb Hcmp); subst tR;
       rewrite proj_base by assumption;
       match goal with |- RD _ _ _ _ (enc _ _ _ _ ?v) _ _ =>
         replace (enc L envW c tW v) with (e_base L c tW v)
           by (destruct tW; try reflexivity; discriminate Hb);
         replace (read_ty P (read_struct P envR dfuel F) F tW)
           with (read_base P tW)
           by (destruct tW; try reflexivity; discriminate Hb)
       end;
       apply (Rd_weak _ _ (okT L));
         [| destruct tW; try discriminate Hb; cbn; auto];
       apply Rd_D; apply r_base; auto;
       destruct tW; try discriminate Hwf; exact Hpos.
  - destruct tW as [| | | | | | | | |a| | |]; try discriminate Hwf.
    destruct tR as [| | | | | | | | |b| | |]; try discriminate Hcmp.
    cbn [compat] in Hcmp.
    cbn [wfd] in Hwf. apply andb_prop in Hwf as [Hn Hl]. cbn [rpos tailQ] in *.
    rewrite enc_list in *. unfold len_le in Hn. cbn [read_ty].
    rewrite app_length in HF. apply (Rd_weak _ _ anyT); [|intros; exact I].
    assert (Hlp := p_L _ _ _ L c Hpos).
    pose proof (enc_elems_count envW a l c _ Hlp Hl).
    cbn [drop_ok] in Hdr. rewrite forallb_forall in Hdr.
    rewrite Forall_forall in H.
    assert (Hsd := sdepth_list l (sdepth (VList l)) (le_n _)).
    rewrite Forall_forall in Hsd.
    eapply Rd_bind; [apply Rd_D, r_lbeg; [exact Hpos|lia]|intros; apply elems_start; assumption|].
    cbn beta iota.
    apply loop_elems with
      (h := fun acc x => acc ++ [proj envW envR a b x]) (F := F);
      auto; try lia.
    + intros x Hx e acc He Hle.
      apply (Rd_map (rrep L) _ _ _ _ _ _ _ (fun v => acc ++ [v])).
      apply (tailQ_weak a). rewrite forallb_forall in Hl.
      pose proof (Hsd x Hx). apply H; auto; try lia.
      apply rpos_epos; assumption.
    + intros e' He'. rewrite fold_snoc. cbn [app proj].
      apply (Rd_map (rrep L) _ _ _ _ _ _ tt
               (fun _ => VList (map (proj envW envR a b) l))).
      apply Rd_D. eapply r_lend; eauto.
  - destruct tW as [| | | | | | | | | |a| |]; try discriminate Hwf.
    destruct tR as [| | | | | | | | | |b| |]; try discriminate Hcmp.
    cbn [compat] in Hcmp.
    cbn [wfd] in Hwf. apply andb_prop in Hwf as [Hn Hl].
    apply andb_prop in Hn as [Hn Hnd]. apply andb_prop in Hn as [Hn Hh].
    assert (Hba := hashable_base _ Hh).
    assert (a = b) by (apply compat_base; assumption). subst b.
    assert (Hproj : map (proj envW envR a a) l = l).
    { rewrite <- (map_id l) at 2. apply map_ext. intros. apply proj_base.
      assumption. }
    cbn [rpos tailQ] in *.
    rewrite enc_set in *. unfold len_le in Hn. cbn [read_ty].
    rewrite app_length in HF. apply (Rd_weak _ _ anyT); [|intros; exact I].
    assert (Hlp := p_L _ _ _ L c Hpos).
    pose proof (enc_elems_count envW a l c _ Hlp Hl).
    rewrite Forall_forall in H.
    assert (Hsd := sdepth_set l (sdepth (VSet l)) (le_n _)).
    rewrite Forall_forall in Hsd.
    eapply Rd_bind; [apply Rd_D, r_tbeg; [exact Hpos|lia]|intros; apply elems_start; assumption|].
    cbn beta iota.
    apply loop_elems with (h := set_add) (F := F);
      auto; try lia.
    + intros x Hx e acc He Hle. rewrite Hh.
      apply (Rd_map (rrep L) _ _ _ _ _ _ _ (set_add acc)).
      apply (tailQ_weak a). rewrite forallb_forall in Hl.
      pose proof (Hsd x Hx).
      rewrite <- (proj_base a a x) by assumption.
      rewrite (proj_base a a x) at 1 by assumption.
      apply H; auto; try lia.
      * apply rpos_epos; assumption.
      * destruct a; try discriminate Hba; destruct x; reflexivity.
    + intros e' He'.
      rewrite fold_set_add; [|assumption|intros; reflexivity].
      cbn [app proj]. rewrite Hproj.
      apply (Rd_map (rrep L) _ _ _ _ _ _ tt (fun _ => VSet l)).
      apply Rd_D. eapply r_tend; eauto.
  - destruct tW as [| | | | | | | | | | |kt va|]; try discriminate Hwf.
    destruct tR as [| | | | | | | | | | |kb vb|]; try discriminate Hcmp.
    cbn [compat] in Hcmp. apply andb_prop in Hcmp as [Hck Hcv].
    cbn [wfd] in Hwf. apply andb_prop in Hwf as [Hn Hl].
    apply andb_prop in Hn as [Hn Hnd]. apply andb_prop in Hn as [Hn Hh].
    assert (Hba := hashable_base _ Hh).
    assert (kt = kb) by (apply compat_base; assumption). subst kb.
    cbn [rpos tailQ] in *.
    rewrite enc_map in *. unfold len_le in Hn. cbn [read_ty].
    rewrite app_length in HF. apply (Rd_weak _ _ anyT); [|intros; exact I].
    assert (Hlp := p_M _ _ _ L c Hpos).
    pose proof (enc_items_count envW kt va l c _ Hlp Hl).
    cbn [drop_ok] in Hdr. rewrite forallb_forall in Hdr.
    rewrite Forall_forall in H.
    assert (Hsd := sdepth_map l (sdepth (VMap l)) (le_n _)).
    rewrite Forall_forall in Hsd.
    eapply Rd_bind; [apply Rd_D, r_mbeg; [exact Hpos|lia]|intros; exact I|].
    assert (Hmr : exists a b, mret L (code kt) (code va) (Z.of_nat (length l))
              = (a, b, Z.of_nat (length l))).
    { destruct l as [|kv l].
      - pose proof (mret_zero _ _ _ L (code kt) (code va)) as Hz.
        cbn [length]. change (Z.of_nat 0) with 0.
        destruct (mret L (code kt) (code va) 0) as [[a b] n]. cbn in Hz. subst n.
        eauto.
      - exists (code kt), (code va).
        apply (mret_pos _ _ _ L). cbn [length]. lia. }
    destruct Hmr as (ka' & va' & ->).
    cbn beta iota.
    set (g := fun kv : value * value =>
                match kv with
                | (k, x) => (proj envW envR kt kt k, proj envW envR va vb x)
                end).
    apply loop_items with
      (h := fun acc kv => dict_set acc (fst (g kv)) (snd (g kv))) (F := F);
      auto; try lia.
    + intros [k x] Hx c' e acc He Hle1 Hle2. cbn [fst snd] in *.
      rewrite forallb_forall in Hl.
      specialize (Hl _ Hx). specialize (H _ Hx). specialize (Hsd _ Hx).
      specialize (Hdr _ Hx). cbn [fst snd] in *.
      apply andb_prop in Hl as [Hlk Hlx]. destruct H as [IHk IHx].
      destruct Hsd as [Hsk Hsx].
      eapply Rd_bind with (v := proj envW envR kt kt k).
      * apply (tailQ_weak kt). apply IHk; auto; try lia.
        -- apply rpos_epos. eapply p_Mk; eauto.
        -- destruct kt; try discriminate Hba; destruct k; reflexivity.
      * intros t _. apply enc_start; auto. eapply p_Mk; eauto.
      * rewrite Hh. cbn [g fst snd].
        apply (Rd_map (rrep L) _ _ _ _ _ _ _
                 (fun v => dict_set acc (proj envW envR kt kt k) v)).
        apply (tailQ_weak va). apply IHx; auto; try lia.
        apply rpos_epos. eapply p_Mv; eauto.
    + intros e' He'.
      rewrite fold_dict_set; auto.
      2:{ intros [k x] _. cbn [g fst]. apply proj_base. assumption. }
      cbn [app proj]. fold g.
      apply (Rd_map (rrep L) _ _ _ _ _ _ tt (fun _ => VMap (map g l))).
      apply Rd_D. eapply r_mend; eauto.
  - destruct tW as [| | | | | | | | | | | |n']; try discriminate Hwf.
    destruct tR as [| | | | | | | | | | | |m]; try discriminate Hcmp.
    rewrite wf_struct in Hwf. apply andb_prop in Hwf as [Hn Hf].
    apply Nat.eqb_eq in Hn. subst n'. cbn [rpos tailQ compat] in *.
    destruct (HR n m Hcmp) as (dsW & dsR & EW & ER & Hcf).
    rewrite EW in Hf. destruct (HenvW _ _ EW) as [HndW HidW].
    destruct (HenvR _ _ ER) as [HndR _].
    rewrite (enc_struct L envW c n n fs dsW EW) in *. rewrite app_length in HF.
    rewrite (drop_struct _ _ _ _ _ dsW dsR EW ER) in Hdr.
    rewrite (proj_struct _ _ _ _ _ _ dsW dsR EW ER).
    rewrite read_ty_struct.
    assert (Hs1 : (1 <= sdepth (VStruct n fs))%nat) by (cbn [sdepth]; lia).
    destruct dfuel as [|dfuel]; [lia|]. cbn [read_struct]. rewrite ER.
    assert (Hsd := sdepth_struct n fs (sdepth (VStruct n fs) - 1)).
    specialize (Hsd ltac:(lia)). rewrite Forall_forall in Hsd.
    rewrite Forall_forall in H.
    apply Rd_depth; [lia|].
    eapply Rd_bind; [apply Rd_D, r_sbeg; exact Hpos|intros; exact I|].
    rewrite <- (map_combine_fresh
                  (fun d a => look envW envR d a fs dsW) dsR).
    rewrite <- upd_fields_look by (auto; unfold fresh; apply map_length).
    apply (read_fields_enc (d + 1) dsR _ (fun acc => ret (VStruct m acc)));
      auto; try lia.
    + rewrite Forall_forall. intros [x|] Hx; [|exact I].
      specialize (H _ Hx). specialize (Hsd _ Hx). cbn beta iota in *.
      intros t tR' c' Hp Hw Hc' Hle Hdr'. apply H; auto; lia.
    + apply (p_fS _ _ _ L); assumption.
Qed.

End Read.
End Generic.
