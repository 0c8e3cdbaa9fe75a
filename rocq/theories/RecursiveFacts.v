(** Facts about the fix-up of recursive field tables. *)
From Coq Require Import ZArith List Bool Lia ZifyBool ZifyNat.
From Verif Require Import Base Proto Spec Recursive.
Import ListNotations.
Open Scope Z_scope.

(** [describes h t a]: in heap [h], the arguments [a] are those of type [t]. *)
Inductive describes (h : heap) : ty -> targs -> Prop :=
| d_none t : base_ty t = true -> describes h t ANone
| d_str t : base_ty t = true -> describes h t AStr
| d_ref c l k : h l = Some (mkcell c k) -> describes h (TStruct c) (ARef l)
| d_list e a i : describes h e a -> describes h (TList e) (AElem (code e) a i)
| d_set e a i : describes h e a -> describes h (TSet e) (AElem (code e) a i)
| d_map k v ka va i : describes h k ka -> describes h v va ->
    describes h (TMap k v) (AMap (code k) ka (code v) va i).

(** Every struct reference in [a] carries its class's own table. *)
Inductive resolved (h : heap) : ty -> targs -> Prop :=
| r_none t : base_ty t = true -> resolved h t ANone
| r_str t : base_ty t = true -> resolved h t AStr
| r_ref c l : h l = Some (mkcell c (Some c)) -> resolved h (TStruct c) (ARef l)
| r_list e a i : resolved h e a -> resolved h (TList e) (AElem (code e) a i)
| r_set e a i : resolved h e a -> resolved h (TSet e) (AElem (code e) a i)
| r_map k v ka va i : resolved h k ka -> resolved h v va ->
    resolved h (TMap k v) (AMap (code k) ka (code v) va i).

(** The struct references in [a]. *)
Inductive refers (l : nat) : targs -> Prop :=
| rf_here : refers l (ARef l)
| rf_elem t a i : refers l a -> refers l (AElem t a i)
| rf_key kt ka vt va i : refers l ka -> refers l (AMap kt ka vt va i)
| rf_val kt ka vt va i : refers l va -> refers l (AMap kt ka vt va i).

(** The struct types named in [t]. *)
Fixpoint names (t : ty) : list nat :=
  match t with
  | TStruct c => [c]
  | TList e | TSet e => names e
  | TMap k v => names k ++ names v
  | _ => []
  end.

(** Heaps with the same objects, where only tables may differ. *)
Definition same_classes (h h' : heap) : Prop :=
  forall l, option_map c_class (h' l) = option_map c_class (h l).

(** [h'] is [h] after writing the tables into the references [p]. *)
Definition fixed (p : nat -> Prop) (h h' : heap) : Prop :=
  same_classes h h'
  /\ (forall l, p l -> forall c k, h l = Some (mkcell c k) -> h' l = Some (mkcell c (Some c)))
  /\ (forall l, ~ p l -> h' l = h l).

Lemma fixed_ext p q h h' : (forall l, p l <-> q l) -> fixed p h h' -> fixed q h h'.
Proof.
  intros H (H1 & H2 & H3). split; [exact H1|]. split.
  - intros l Hl. apply H2, H, Hl.
  - intros l Hl. apply H3. intros Hp. apply Hl, H, Hp.
Qed.

Lemma fixed_none h : fixed (fun _ => False) h h.
Proof. repeat split; intros; tauto || reflexivity. Qed.

Lemma same_describes h h' t a : same_classes h h' -> describes h t a -> describes h' t a.
Proof.
  intros Hs H. induction H; try (constructor; assumption).
  specialize (Hs l). rewrite H in Hs. destruct (h' l) as [[c' k']|] eqn:E; [|discriminate Hs].
  cbn in Hs. injection Hs as ->. eapply d_ref, E.
Qed.

Lemma same_classes_trans h1 h2 h3 :
  same_classes h1 h2 -> same_classes h2 h3 -> same_classes h1 h3.
Proof. intros A B l. rewrite B. apply A. Qed.

(** Two passes. *)
Lemma fixed_trans p q h1 h2 h3 : (forall l, p l \/ ~ p l) -> (forall l, q l \/ ~ q l) ->
  fixed p h1 h2 -> fixed q h2 h3 -> fixed (fun l => p l \/ q l) h1 h3.
Proof.
  intros Dp Dq (A1 & A2 & A3) (B1 & B2 & B3).
  split; [eapply same_classes_trans; eassumption|]. split.
  - intros l Hl c k E.
    destruct (Dq l) as [Q|Q].
    + specialize (A1 l). rewrite E in A1. destruct (h2 l) as [[c' k']|] eqn:E2; [|discriminate A1].
      cbn in A1. injection A1 as ->. apply (B2 l Q c k' E2).
    + destruct Hl as [P|P]; [|contradiction]. rewrite (B3 l Q). apply (A2 l P c k E).
  - intros l Hn. rewrite B3, A3; tauto.
Qed.

Lemma refers_dec l a : refers l a \/ ~ refers l a.
Proof.
  induction a as [| |l'|t a IH i|kt ka IHk vt va IHv i].
  - right. intros H. inversion H.
  - right. intros H. inversion H.
  - destruct (Nat.eq_dec l l') as [->|Hn]; [left; constructor|].
    right. intros H. inversion H. contradiction.
  - destruct IH as [IH|IH]; [left; constructor; exact IH|].
    right. intros H. inversion H. contradiction.
  - destruct IHk as [IHk|IHk]; [left; apply rf_key; exact IHk|].
    destruct IHv as [IHv|IHv]; [left; apply rf_val; exact IHv|].
    right. intros H. inversion H; contradiction.
Qed.

Section Fix.
Variable classes : nat -> option (list (option fspec)).

(** The dispatch repeated three times in the code. *)
Definition fix_arg (t : Z) (a : targs) (h : heap) : outcome heap :=
  if t =? T_STRUCT then fix_ref classes h a
  else if (t =? T_LIST) || (t =? T_SET) then fix_list_or_set classes a h
  else if t =? T_MAP then fix_map classes a h
  else Ok h.

Lemma fix_arg_ok t a : forall h, describes h t a ->
  (forall c, In c (names t) -> classes c <> None) ->
  exists h', fix_arg (code t) a h = Ok h' /\ fixed (fun l => refers l a) h h'.
Proof.
  revert a. induction t; intros a h Hd Hc;
    try (exists h; split; [reflexivity|]; eapply fixed_ext; [|apply fixed_none];
         intros l; split; [tauto|]; inversion Hd; subst; intros R; inversion R).
  - (* list *)
    inversion Hd as [? Hb|? Hb| |? b i Hb| |]; subst; try discriminate Hb.
    destruct (IHt b h Hb Hc) as (h' & E & F). exists h'. split.
    + change (fix_arg (code (TList t)) (AElem (code t) b i) h) with (fix_arg (code t) b h).
      exact E.
    + eapply fixed_ext; [|exact F]. intros l. split; [apply rf_elem|].
      intros R. inversion R. assumption.
  - (* set *)
    inversion Hd as [? Hb|? Hb| | |? b i Hb|]; subst; try discriminate Hb.
    destruct (IHt b h Hb Hc) as (h' & E & F). exists h'. split.
    + change (fix_arg (code (TSet t)) (AElem (code t) b i) h) with (fix_arg (code t) b h).
      exact E.
    + eapply fixed_ext; [|exact F]. intros l. split; [apply rf_elem|].
      intros R. inversion R. assumption.
  - (* map *)
    inversion Hd as [? Hb|? Hb| | | |? ? ka va i Hk Hv]; subst; try discriminate Hb.
    cbn [names] in Hc.
    destruct (IHt1 ka h Hk ltac:(intros c Hi; apply Hc, in_or_app; auto)) as (h1 & E1 & F1).
    destruct (IHt2 va h1 ltac:(eapply same_describes; [apply F1|exact Hv])
      ltac:(intros c Hi; apply Hc, in_or_app; auto)) as (h2 & E2 & F2).
    exists h2. split.
    + change (fix_arg (code (TMap t1 t2)) (AMap (code t1) ka (code t2) va i) h)
        with (obind (fix_arg (code t1) ka h) (fix_arg (code t2) va)).
      rewrite E1. exact E2.
    + eapply fixed_ext;
        [|eapply fixed_trans; [| |exact F1|exact F2]; intros l; apply refers_dec].
      intros l. split.
      * intros [R|R]; [apply rf_key|apply rf_val]; exact R.
      * intros R. inversion R; auto.
  - (* struct *)
    inversion Hd as [? Hb|? Hb|? l k El| | |]; subst; try discriminate Hb.
    specialize (Hc n (or_introl eq_refl)).
    exists (hset h l (mkcell n (Some n))). split.
    + change (fix_arg (code (TStruct n)) (ARef l) h) with (fix_ref classes h (ARef l)).
      cbn [fix_ref]. rewrite El. cbn [c_class]. destruct (classes n); [reflexivity|tauto].
    + split; [|split].
      * intros l'. unfold hset. destruct (Nat.eqb_spec l' l) as [->|]; [|reflexivity].
        rewrite El. reflexivity.
      * intros l' R c k' E. inversion R; subst. unfold hset. rewrite Nat.eqb_refl. congruence.
      * intros l' R. unfold hset. destruct (Nat.eqb_spec l' l) as [->|]; [|reflexivity].
        exfalso. apply R. constructor.
Qed.

(** A table is well formed: each entry describes some type whose classes have
    tables. *)
Definition entry_ok (h : heap) (f : fspec) : Prop :=
  exists t, fs_type f = code t /\ describes h t (fs_args f)
    /\ forall c, In c (names t) -> classes c <> None.

Definition in_spec (l : nat) (spec : list (option fspec)) : Prop :=
  exists f, In (Some f) spec /\ refers l (fs_args f).

Lemma in_spec_dec l spec : in_spec l spec \/ ~ in_spec l spec.
Proof.
  induction spec as [|[f|] r IH].
  - right. intros (f & [] & _).
  - destruct (refers_dec l (fs_args f)) as [R|R].
    + left. exists f. split; [left; reflexivity|exact R].
    + destruct IH as [(g & Hg & Rg)|IH].
      * left. exists g. split; [right; exact Hg|exact Rg].
      * right. intros (g & [Hg|Hg] & Rg); [congruence|]. apply IH. exists g. auto.
  - destruct IH as [(g & Hg & Rg)|IH].
    + left. exists g. split; [right; exact Hg|exact Rg].
    + right. intros (g & [Hg|Hg] & Rg); [discriminate|]. apply IH. exists g. auto.
Qed.

Lemma entry_same h h' f : same_classes h h' -> entry_ok h f -> entry_ok h' f.
Proof.
  intros Hs (t & H1 & H2 & H3). exists t. split; [exact H1|]. split; [|exact H3].
  eapply same_describes; eassumption.
Qed.

Lemma fix_fields_ok spec : forall h, (forall f, In (Some f) spec -> entry_ok h f) ->
  exists h', fix_fields classes spec h = Ok h' /\ fixed (fun l => in_spec l spec) h h'.
Proof.
  induction spec as [|[f|] r IH]; intros h H.
  - exists h. split; [reflexivity|]. eapply fixed_ext; [|apply fixed_none].
    intros l. split; [tauto|]. intros (f & [] & _).
  - destruct (H f (or_introl eq_refl)) as (t & Et & Hd & Hc).
    destruct (fix_arg_ok t (fs_args f) h Hd Hc) as (h1 & E1 & F1).
    destruct (IH h1) as (h2 & E2 & F2).
    { intros g Hg. eapply entry_same; [apply F1|]. apply H. right. exact Hg. }
    exists h2. split.
    + change (fix_fields classes (Some f :: r) h)
        with (obind (fix_arg (fs_type f) (fs_args f) h) (fix_fields classes r)).
      rewrite Et, E1. exact E2.
    + eapply fixed_ext;
        [|eapply fixed_trans;
          [| |exact F1|exact F2]; intros l; [apply refers_dec|apply in_spec_dec]].
      intros l. split.
      * intros [R|(g & Hg & R)]; [exists f|exists g]; (split; [|exact R]).
        -- left. reflexivity.
        -- right. exact Hg.
      * intros (g & [Hg|Hg] & R); [injection Hg as <-; auto|]. right. exists g. auto.
  - destruct (IH h) as (h' & E & F); [intros f Hf; apply H; right; exact Hf|].
    exists h'. split; [exact E|]. eapply fixed_ext; [|exact F].
    intros l. split; intros (g & Hg & R); exists g; (split; [|exact R]).
    + right. exact Hg.
    + destruct Hg as [Hg|Hg]; [discriminate|exact Hg].
Qed.

Definition in_classes (all : list nat) (l : nat) : Prop :=
  exists c spec, In c all /\ classes c = Some spec /\ in_spec l spec.

Lemma in_classes_dec all l : in_classes all l \/ ~ in_classes all l.
Proof.
  induction all as [|c r IH].
  - right. intros (c & spec & [] & _).
  - destruct IH as [(c' & spec & H1 & H2 & H3)|IH].
    { left. exists c', spec. repeat split; [right; exact H1|exact H2|exact H3]. }
    destruct (classes c) as [spec|] eqn:E.
    + destruct (in_spec_dec l spec) as [S|S].
      * left. exists c, spec. repeat split; [left; reflexivity|exact E|exact S].
      * right. intros (c' & spec' & [<-|H1] & H2 & H3); [congruence|].
        apply IH. exists c', spec'. auto.
    + right. intros (c' & spec' & [<-|H1] & H2 & H3); [congruence|].
      apply IH. exists c', spec'. auto.
Qed.

Lemma fix_spec_ok all : forall h,
  (forall c, In c all -> exists spec, classes c = Some spec
     /\ forall f, In (Some f) spec -> entry_ok h f) ->
  exists h', fix_spec classes all h = Ok h' /\ fixed (in_classes all) h h'.
Proof.
  induction all as [|c r IH]; intros h H.
  - exists h. split; [reflexivity|]. eapply fixed_ext; [|apply fixed_none].
    intros l. split; [tauto|]. intros (c & spec & [] & _).
  - destruct (H c (or_introl eq_refl)) as (spec & Ec & Hf).
    destruct (fix_fields_ok spec h Hf) as (h1 & E1 & F1).
    destruct (IH h1) as (h2 & E2 & F2).
    { intros c' Hc'. destruct (H c' (or_intror Hc')) as (spec' & Ec' & Hf').
      exists spec'. split; [exact Ec'|]. intros f Hi. eapply entry_same; [apply F1|]. auto. }
    exists h2. split.
    + cbn [fix_spec]. rewrite Ec, E1. exact E2.
    + eapply fixed_ext;
        [|eapply fixed_trans;
          [| |exact F1|exact F2]; intros l; [apply in_spec_dec|apply in_classes_dec]].
      intros l. split.
      * intros [S|(c' & s' & H1 & H2 & H3)].
        -- exists c, spec. repeat split; [left; reflexivity|exact Ec|exact S].
        -- exists c', s'. repeat split; [right; exact H1|exact H2|exact H3].
      * intros (c' & s' & [<-|H1] & H2 & H3).
        -- left. congruence.
        -- right. exists c', s'. auto.
Qed.

(** What was described is resolved. *)
Lemma fixed_resolved (p : nat -> Prop) h h' t a : fixed p h h' ->
  (forall l, refers l a -> p l) -> describes h t a -> resolved h' t a.
Proof.
  intros (_ & F & _) Hp H. induction H; try (constructor; assumption).
  - apply r_ref. eapply F; [apply Hp; constructor|eassumption].
  - constructor. apply IHdescribes. intros l R. apply Hp. constructor. exact R.
  - constructor. apply IHdescribes. intros l R. apply Hp. constructor. exact R.
  - constructor; [apply IHdescribes1|apply IHdescribes2]; intros l R; apply Hp;
      [apply rf_key|apply rf_val]; exact R.
Qed.
End Fix.

(** * Emitted tables *)

(** Addresses at or above the allocation pointer are unused, and allocation
    leaves lower ones alone. *)
Definition ext (s s' : nat * heap) : Prop :=
  (fst s <= fst s')%nat /\ forall l, (l < fst s)%nat -> snd s' l = snd s l.

Lemma ext_refl s : ext s s.
Proof. split; auto. Qed.
Lemma ext_trans a b c : ext a b -> ext b c -> ext a c.
Proof.
  intros [H1 H2] [H3 H4]. split; [lia|]. intros l Hl. rewrite H4 by lia. apply H2, Hl.
Qed.

(** Described using addresses below the pointer only. *)
Definition settled (s : nat * heap) (t : ty) (a : targs) : Prop :=
  describes (snd s) t a /\ forall l, refers l a -> (l < fst s)%nat.

Lemma settled_ext s s' t a : ext s s' -> settled s t a -> settled s' t a.
Proof.
  intros [H1 H2] [Hd Hl]. split; [|intros l R; specialize (Hl l R); lia].
  induction Hd; try (constructor; assumption).
  - eapply d_ref. rewrite H2; [exact H|]. apply Hl. constructor.
  - constructor. apply IHHd. intros l R. apply Hl. constructor. exact R.
  - constructor. apply IHHd. intros l R. apply Hl. constructor. exact R.
  - constructor; [apply IHHd1|apply IHHd2]; intros l R; apply Hl;
      [apply rf_key|apply rf_val]; exact R.
Qed.

Lemma emit_args_ok imm t : forall s a s', emit_args imm t s = (a, s') ->
  ext s s' /\ settled s' t a.
Proof.
  induction t; intros s a s' E; cbn [emit_args] in E;
    try (injection E as <- <-; split; [apply ext_refl|]; split;
         [constructor; reflexivity|intros l R; inversion R]).
  - destruct (emit_args imm t s) as [b s1] eqn:E1. injection E as <- <-.
    destruct (IHt _ _ _ E1) as [X [D R]]. split; [exact X|].
    split; [constructor; exact D|]. intros l H. inversion H; subst. auto.
  - destruct (emit_args imm t s) as [b s1] eqn:E1. injection E as <- <-.
    destruct (IHt _ _ _ E1) as [X [D R]]. split; [exact X|].
    split; [constructor; exact D|]. intros l H. inversion H; subst. auto.
  - destruct (emit_args imm t1 s) as [ka s1] eqn:E1.
    destruct (emit_args imm t2 s1) as [va s2] eqn:E2. injection E as <- <-.
    destruct (IHt1 _ _ _ E1) as [X1 S1]. destruct (IHt2 _ _ _ E2) as [X2 S2].
    split; [eapply ext_trans; eassumption|].
    apply (settled_ext _ _ _ _ X2) in S1. destruct S1 as [D1 R1], S2 as [D2 R2].
    split; [constructor; assumption|]. intros l H. inversion H; subst; auto.
  - injection E as <- <-. split.
    + split; cbn [fst snd]; [lia|]. intros l Hl. unfold hset.
      destruct (Nat.eqb_spec l (fst s)); [lia|reflexivity].
    + split.
      * eapply d_ref. cbn [snd]. unfold hset. rewrite Nat.eqb_refl. reflexivity.
      * intros l H. inversion H; subst. cbn [fst]. lia.
Qed.

Definition entry_for (s : nat * heap) (ds : list fielddef) (f : fspec) : Prop :=
  exists d, In d ds /\ fs_id f = f_id d /\ fs_type f = code (f_ty d)
    /\ settled s (f_ty d) (fs_args f).

Lemma entry_for_ext s s' ds f : ext s s' -> entry_for s ds f -> entry_for s' ds f.
Proof.
  intros X (d & H1 & H2 & H3 & H4). exists d. repeat split; try assumption;
    eapply settled_ext; eassumption.
Qed.

Lemma emit_fields_ok imm ds : forall pos s l s', emit_fields imm pos ds s = (l, s') ->
  ext s s' /\ (forall f, In (Some f) l -> entry_for s' ds f)
  /\ (forall d, In d ds -> exists f, In (Some f) l /\ fs_id f = f_id d
        /\ fs_type f = code (f_ty d) /\ settled s' (f_ty d) (fs_args f)).
Proof.
  induction ds as [|d r IH]; intros pos s l s' E; cbn [emit_fields] in E.
  - injection E as <- <-. split; [apply ext_refl|]. split; [intros f []|intros d []].
  - destruct (emit_args imm (f_ty d) s) as [a s1] eqn:E1.
    destruct (emit_fields imm (f_id d + 1) r s1) as [l' s2] eqn:E2. injection E as <- <-.
    destruct (emit_args_ok _ _ _ _ _ E1) as [X1 S1].
    destruct (IH _ _ _ _ E2) as (X2 & F & G).
    split; [eapply ext_trans; eassumption|]. split.
    + intros f Hf. apply in_app_or in Hf. destruct Hf as [Hf|[Hf|Hf]].
      * apply repeat_spec in Hf. discriminate.
      * injection Hf as <-. exists d. cbn [fs_id fs_type fs_args].
        split; [left; reflexivity|]. repeat split; eapply settled_ext; eassumption.
      * destruct (F f Hf) as (d' & H1 & H2 & H3 & H4). exists d'.
        split; [right; exact H1|]. auto.
    + intros d' [<-|Hd'].
      * exists (mkfspec (f_id d) (code (f_ty d)) 0 a 0).
        split; [apply in_or_app; right; left; reflexivity|]. cbn [fs_id fs_type fs_args].
        repeat split; eapply settled_ext; eassumption.
      * destruct (G d' Hd') as (f & H1 & H2). exists f.
        split; [apply in_or_app; right; right; exact H1|exact H2].
Qed.

Lemma emit_module_ok imm env : forall s specs h, emit_module imm env s = (specs, h) ->
  exists p, ext s (p, h) /\ length specs = length env
  /\ forall n spec, nth_error specs n = Some spec ->
     exists ds, nth_error env n = Some ds
       /\ (forall f, In (Some f) spec -> entry_for (p, h) ds f)
       /\ ((forall d, In d ds -> 0 <= f_id d) -> forall d, In d ds ->
             exists f, In (Some f) spec /\ fs_id f = f_id d /\ fs_type f = code (f_ty d)
               /\ settled (p, h) (f_ty d) (fs_args f)).
Proof.
  induction env as [|ds r IH]; intros s specs h E; cbn [emit_module] in E.
  - injection E as <- <-. exists (fst s). split; [split; auto|]. split; [reflexivity|].
    intros [|n] spec En; discriminate.
  - destruct (emit_class imm ds s) as [spec s1] eqn:E1.
    destruct (emit_module imm r s1) as [l h'] eqn:E2. injection E as <- <-.
    destruct (IH _ _ _ E2) as (p & X2 & HL & H).
    assert (H1 : ext s s1 /\ (forall f, In (Some f) spec -> entry_for s1 ds f)
      /\ ((forall d, In d ds -> 0 <= f_id d) -> forall d, In d ds ->
             exists f, In (Some f) spec /\ fs_id f = f_id d /\ fs_type f = code (f_ty d)
               /\ settled s1 (f_ty d) (fs_args f))).
    { unfold emit_class in E1. destruct ds as [|d ds].
      - injection E1 as <- <-. split; [apply ext_refl|]. split; [intros f []|intros _ d []].
      - destruct (0 <=? f_id d) eqn:Ed.
        + destruct (emit_fields_ok _ _ _ _ _ _ E1) as (A & B & C). auto.
        + injection E1 as <- <-. split; [apply ext_refl|]. split; [intros f []|].
          intros Hn. specialize (Hn d (or_introl eq_refl)). lia. }
    destruct H1 as (X1 & F & G).
    exists p. split; [eapply ext_trans; eassumption|]. split; [cbn; congruence|].
    intros [|n] spec' En; cbn in En.
    + injection En as <-. exists ds. split; [reflexivity|]. split.
      * intros f Hf. eapply entry_for_ext; [exact X2|]. auto.
      * intros Hn d Hd. destruct (G Hn d Hd) as (f & A & B & C & D). exists f.
        repeat split; try assumption; eapply settled_ext; eassumption.
    + destruct (H n spec' En) as (ds' & A). exists ds'. exact A.
Qed.
