(** C38: frozen dictionaries. *)
From Coq Require Import ZArith List Bool Lia Permutation Sorted.
From Verif Require Import Base Frozen.
Import ListNotations.
Open Scope Z_scope.

Section Facts.
Context {K V : Type}.
Variable keq : K -> K -> bool.
Hypothesis keq_ok : forall a b, keq a b = true <-> a = b.

Lemma dget_dput d k v k' :
  dget keq (@dput K V keq d k v) k' = if keq k' k then Some v else dget keq d k'.
Proof.
  induction d as [|[a b] r IH]; cbn [dput dget]; [reflexivity|].
  destruct (keq k a) eqn:E.
  - apply keq_ok in E. subst a. cbn [dget]. destruct (keq k' k); reflexivity.
  - cbn [dget]. rewrite IH. destruct (keq k' a) eqn:E1; [|reflexivity].
    destruct (keq k' k) eqn:E2; [|reflexivity].
    apply keq_ok in E1, E2. subst. rewrite (proj2 (keq_ok _ _) eq_refl) in E. discriminate.
Qed.

Lemma dput_keys d k v a : In a (map fst (@dput K V keq d k v)) <-> a = k \/ In a (map fst d).
Proof.
  induction d as [|[x y] r IH]; cbn [dput map fst In]; [intuition congruence|].
  destruct (keq k x) eqn:E; cbn [map fst In].
  - apply keq_ok in E. subst x. intuition congruence.
  - rewrite IH. intuition congruence.
Qed.

Lemma dput_nodup d k v : NoDup (map fst d) -> NoDup (map fst (@dput K V keq d k v)).
Proof.
  induction d as [|[x y] r IH]; cbn [dput map fst]; intros H.
  - repeat constructor. intros [].
  - inversion H; subst. destruct (keq k x) eqn:E; cbn [map fst]; [exact H|].
    constructor; [|apply IH; assumption]. rewrite dput_keys. intros [->|Hi]; [|contradiction].
    rewrite (proj2 (keq_ok _ _) eq_refl) in E. discriminate.
Qed.

Lemma dupdate_nodup l : forall d, NoDup (map fst d) -> NoDup (map fst (@dupdate K V keq d l)).
Proof.
  induction l as [|[k v] r IH]; intros d H; [exact H|]. apply IH, dput_nodup, H.
Qed.

Lemma dget_in d k v : NoDup (map fst d) -> (In (k, v) d <-> dget (V := V) keq d k = Some v).
Proof.
  induction d as [|[x y] r IH]; cbn [map fst dget In]; intros H; [intuition discriminate|].
  inversion H; subst. destruct (keq k x) eqn:E.
  - apply keq_ok in E. subst x. split.
    + intros [E|E]; [congruence|]. exfalso. apply H2. apply (in_map fst) in E. exact E.
    + intros E. left. congruence.
  - rewrite <- (IH H3). split; [|auto]. intros [E1|E1]; [|exact E1].
    injection E1 as -> ->. rewrite (proj2 (keq_ok _ _) eq_refl) in E. discriminate.
Qed.

Variable ile : K * V -> K * V -> bool.
Hypothesis ile_total : forall a b, ile a b = true \/ ile b a = true.
Hypothesis ile_trans : forall a b c, ile a b = true -> ile b c = true -> ile a c = true.
Hypothesis ile_antisym : forall a b, ile a b = true -> ile b a = true -> a = b.

Lemma insert_perm x l : Permutation (insert ile x l) (x :: l).
Proof.
  induction l as [|y r IH]; cbn [insert]; [reflexivity|].
  destruct (ile x y); [reflexivity|]. rewrite IH. apply perm_swap.
Qed.

Lemma isort_perm l : Permutation (isort ile l) l.
Proof.
  induction l as [|x r IH]; cbn [isort]; [reflexivity|]. rewrite insert_perm.
  apply perm_skip, IH.
Qed.

Lemma insert_sorted x l : StronglySorted (fun a b => ile a b = true) l ->
  StronglySorted (fun a b => ile a b = true) (insert ile x l).
Proof.
  induction l as [|y r IH]; cbn [insert]; intros H; [repeat constructor|].
  inversion H as [|? ? Hr Hf]; subst. destruct (ile x y) eqn:E.
  - constructor; [exact H|]. constructor; [exact E|].
    rewrite Forall_forall in *. intros z Hz. eapply ile_trans; [exact E|]. auto.
  - constructor; [apply IH, Hr|]. rewrite Forall_forall in *. intros z Hz.
    apply (Permutation_in _ (insert_perm x r)) in Hz. destruct Hz as [<-|Hz]; [|auto].
    destruct (ile_total x y); congruence.
Qed.

Lemma isort_sorted l : StronglySorted (fun a b => ile a b = true) (isort ile l).
Proof. induction l; cbn [isort]; [constructor|]. apply insert_sorted. assumption. Qed.

Lemma sorted_unique (a : list (K * V)) : forall b,
  StronglySorted (fun x y => ile x y = true) a ->
  StronglySorted (fun x y => ile x y = true) b -> Permutation a b -> a = b.
Proof.
  induction a as [|x a IH]; intros b Ha Hb P.
  - apply Permutation_nil in P. subst. reflexivity.
  - destruct b as [|y b]; [apply Permutation_sym, Permutation_nil_cons in P; contradiction|].
    inversion Ha as [|? ? Ha' Fa]; inversion Hb as [|? ? Hb' Fb]; subst.
    rewrite Forall_forall in Fa, Fb.
    assert (x = y).
    { pose proof (Permutation_in x P (or_introl eq_refl)) as [|I1]; [auto|].
      pose proof (Permutation_in y (Permutation_sym P) (or_introl eq_refl)) as [|I2]; [auto|].
      apply ile_antisym; auto. }
    subst y. f_equal. apply IH; try assumption. eapply Permutation_cons_inv, P.
Qed.

Variable veq : V -> V -> bool.
Hypothesis veq_ok : forall a b, veq a b = true <-> a = b.

Lemma dict_eq_perm a b : NoDup (map fst a) -> NoDup (map fst b) ->
  dict_eq keq veq a b = true -> Permutation a b.
Proof.
  intros Ha Hb H. unfold dict_eq in H. apply andb_prop in H. destruct H as [HL HI].
  apply Nat.eqb_eq in HL. rewrite forallb_forall in HI.
  assert (Hincl : incl a b).
  { intros [k v] Hin. specialize (HI _ Hin). cbn [fst snd] in HI.
    destruct (dget keq b k) as [w|] eqn:E; [|discriminate]. apply veq_ok in HI. subst w.
    apply dget_in; assumption. }
  apply NoDup_Permutation_bis; try assumption; [|lia].
  eapply NoDup_map_inv, Ha.
Qed.

Lemma dict_eq_refl a : NoDup (map fst a) -> dict_eq keq veq a a = true.
Proof.
  intros H. unfold dict_eq. rewrite Nat.eqb_refl. cbn [andb]. rewrite forallb_forall.
  intros [k v] Hin. apply (dget_in _ _ _ H) in Hin. cbn [fst snd]. rewrite Hin.
  apply veq_ok. reflexivity.
Qed.
End Facts.

(** Operations that do not go through the methods inherited from dict which
    modify it. *)
Definition respectful {K V} (o : @op K V) : bool :=
  match o with
  | Update _ | SetDefault _ _ | Pop _ | PopItem | Clear => false
  | _ => true
  end.

(** In any sequence of item assignments, item deletions and reads, each
    assignment and deletion raises and the object stays as it was. *)
Theorem C38_frozen : forall K V (keq : K -> K -> bool) (os : list (@op K V)) d,
  forallb respectful os = true ->
  snd (run keq os d) = d
  /\ forall i o, nth_error os i = Some o ->
     (exists k v, o = SetItem k v) \/ (exists k, o = DelItem k) ->
     nth_error (fst (run keq os d)) i = Some (Raise ETypeError).
Proof.
  intros K V keq os d. induction os as [|o r IH]; intros H.
  - split; [reflexivity|]. intros [|i] o E; discriminate.
  - apply andb_prop in H. destruct H as [H1 H2]. specialize (IH H2). cbn [run].
    assert (Es : snd (step keq o d) = d) by (destruct o; try discriminate H1; reflexivity).
    destruct (step keq o d) as [x d1] eqn:E. cbn [snd] in Es. subst d1.
    destruct (run keq r d) as [xs d2]. cbn [fst snd] in *. destruct IH as [-> IH].
    split; [reflexivity|]. intros [|i] o' Eo Ho; cbn in *.
    + injection Eo as <-. destruct Ho as [(k & v & ->)|(k & ->)]; cbn in E; congruence.
    + apply (IH i o' Eo Ho).
Qed.

(** Frozen dicts built from equal contents, in whatever order, have equal
    hashes, for every hash of tuples and every total order on items. *)
Theorem C38_hash_consistent : forall K V (keq : K -> K -> bool) (veq : V -> V -> bool) ile
    hash_items hash_class l l',
  (forall a b, keq a b = true <-> a = b) -> (forall a b, veq a b = true <-> a = b) ->
  (forall a b, ile a b = true \/ ile b a = true) ->
  (forall a b c, ile a b = true -> ile b c = true -> ile a c = true) ->
  (forall a b : K * V, ile a b = true -> ile b a = true -> a = b) ->
  let d := frozen keq ile hash_items hash_class l in
  let d' := frozen keq ile hash_items hash_class l' in
  dict_eq keq veq (table d) (table d') = true -> hashval d = hashval d'.
Proof.
  intros K V keq veq ile hi hc l l' Hk Hv Ht Htr Ha d d' H. unfold d, d', frozen in *.
  cbn [table hashval] in *. f_equal. f_equal.
  assert (N : forall z, NoDup (map fst (dupdate keq (@nil (K * V)) z))).
  { intros z. apply (dupdate_nodup keq Hk). constructor. }
  apply (sorted_unique ile Ha).
  - apply isort_sorted; assumption.
  - apply isort_sorted; assumption.
  - rewrite !isort_perm. eapply dict_eq_perm; try eassumption; apply N.
Qed.

(** The inherited methods change the contents and keep the old hash. *)
Theorem C38_update_modifies : forall K V (keq : K -> K -> bool) (d : @fdict K V) k v,
  (forall a b, keq a b = true <-> a = b) ->
  let '(r, d') := step keq (Update [(k, v)]) d in
  r = Ok RNone /\ dget keq (table d') k = Some v /\ hashval d' = hashval d.
Proof.
  intros K V keq d k v H. cbn. split; [reflexivity|]. split; [|reflexivity].
  unfold dupdate. cbn [fold_left fst snd]. rewrite (dget_dput keq H).
  rewrite (proj2 (H _ _) eq_refl). reflexivity.
Qed.

Theorem C38_setdefault_modifies : forall K V (keq : K -> K -> bool) (d : @fdict K V) k v,
  (forall a b, keq a b = true <-> a = b) -> dget keq (table d) k = None ->
  let '(r, d') := step keq (SetDefault k v) d in
  r = Ok (RVal v) /\ dget keq (table d') k = Some v /\ hashval d' = hashval d.
Proof.
  intros K V keq d k v H E. cbn. rewrite E. split; [reflexivity|]. split; [|reflexivity].
  cbn [table]. rewrite (dget_dput keq H). rewrite (proj2 (H _ _) eq_refl). reflexivity.
Qed.

Theorem C38_removal_modifies : forall K V (keq : K -> K -> bool) (d : @fdict K V) o,
  (forall a b, keq a b = true <-> a = b) -> NoDup (map fst (table d)) ->
  (exists k v, o = Pop k /\ dget keq (table d) k = Some v)
  \/ (o = PopItem /\ table d <> []) \/ (o = Clear /\ table d <> []) ->
  let '(r, d') := step keq o d in
  (exists x, r = Ok x) /\ hashval d' = hashval d
  /\ exists k v, dget keq (table d) k = Some v /\ dget keq (table d') k = None.
Proof.
  intros K V keq d o Hk Hn Ho. destruct Ho as [(k & v & -> & E)|[[-> E]|[-> E]]]; cbn [step].
  - rewrite E. split; [eexists; reflexivity|]. split; [reflexivity|]. exists k, v.
    split; [exact E|]. cbn [table]. clear E.
    induction (table d) as [|[x y] r IH]; cbn [ddel dget]; [reflexivity|].
    cbn [map fst] in Hn. inversion Hn; subst. destruct (keq k x) eqn:Ex.
    + apply Hk in Ex. subst x. destruct (dget keq r k) as [w|] eqn:Ew; [|reflexivity].
      exfalso. apply (dget_in keq Hk) in Ew; [|assumption]. apply H1.
      apply (in_map fst) in Ew. exact Ew.
    + cbn [dget]. rewrite Ex. apply IH. assumption.
  - destruct (rev (table d)) as [|[k v] r] eqn:Er.
    { exfalso. apply E. rewrite <- (rev_involutive (table d)), Er. reflexivity. }
    assert (Et : table d = rev r ++ [(k, v)])
      by (rewrite <- (rev_involutive (table d)), Er; reflexivity).
    split; [eexists; reflexivity|]. split; [reflexivity|]. exists k, v. cbn [table].
    rewrite Et in Hn |- *. split.
    + apply (dget_in keq Hk); [exact Hn|]. apply in_or_app. right. left. reflexivity.
    + destruct (dget keq (rev r) k) as [w|] eqn:Ew; [|reflexivity]. exfalso.
      rewrite map_app in Hn. cbn [map fst] in Hn. pose proof (NoDup_remove_1 _ _ _ Hn) as Hn1.
      rewrite app_nil_r in Hn1. apply NoDup_remove_2 in Hn.
      rewrite app_nil_r in Hn. apply Hn.
      apply (dget_in keq Hk) in Ew.
      * apply (in_map fst) in Ew. exact Ew.
      * exact Hn1.
  - destruct (table d) as [|[k v] r] eqn:Et; [contradiction|].
    split; [eexists; reflexivity|]. split; [reflexivity|]. exists k, v.
    cbn [dget table]. rewrite (proj2 (Hk _ _) eq_refl). split; reflexivity.
Qed.

(** So equal dicts can have different hashes: after an update, a frozen dict
    equals one newly built from its contents, but keeps the hash of what it held
    before.  They differ whenever the tuple hash tells the two contents apart. *)
Theorem C38_equal_unequal_hash : forall K V (keq : K -> K -> bool) (veq : V -> V -> bool) ile
    hash_items hash_class l m,
  (forall a b, keq a b = true <-> a = b) -> (forall a b, veq a b = true <-> a = b) ->
  let d := frozen keq ile hash_items hash_class l in
  let d' := snd (step keq (Update m) d) in
  let e := frozen keq ile hash_items hash_class (table d') in
  dict_eq keq veq (table d') (table e) = true
  /\ (hash_items (isort ile (table e)) <> hash_items (isort ile (table d)) ->
      hashval d' <> hashval e).
Proof.
  intros K V keq veq ile hi hc l m Hk Hv d d' e.
  assert (N0 : NoDup (map fst (table d)))
    by (apply (dupdate_nodup keq Hk); constructor).
  assert (N : NoDup (map fst (table d')))
    by (unfold d'; cbn [step snd table]; apply (dupdate_nodup keq Hk), N0).
  assert (Ee : table e = table d').
  { unfold e, frozen. cbn [table]. generalize (table d') N. clear - Hk. intros t Ht.
    assert (H : forall a b : list (K * V),
        NoDup (map fst (a ++ b)) -> dupdate keq a b = a ++ b).
    { intros a b. revert a. induction b as [|[k v] b IH]; intros a Hn.
      - rewrite app_nil_r. reflexivity.
      - unfold dupdate. cbn [fold_left fst snd]. fold (dupdate keq (dput keq a k v) b).
        assert (Ep : dput keq a k v = a ++ [(k, v)]).
        { rewrite map_app in Hn. cbn [map fst] in Hn. apply NoDup_remove_2 in Hn.
          assert (Hka : ~ In k (map fst a)) by (intros Hi; apply Hn, in_or_app; auto).
          clear - Hk Hka. induction a as [|[x y] a IH]; [reflexivity|]. cbn [dput].
          destruct (keq k x) eqn:E.
          - apply Hk in E. subst x. exfalso. apply Hka. left. reflexivity.
          - rewrite IH; [reflexivity|]. intros Hi. apply Hka. right. exact Hi. }
        rewrite Ep, IH; rewrite <- app_assoc; [reflexivity|exact Hn]. }
    apply (H [] t Ht). }
  split.
  - rewrite Ee. apply (dict_eq_refl keq Hk veq Hv). exact N.
  - intros Hne Heq. apply Hne.
    unfold d', e, d, frozen in Heq. cbn [step snd hashval table] in Heq.
    assert (Hx : forall a b, Z.lxor hc a = Z.lxor hc b -> a = b).
    { intros a b E. apply (f_equal (Z.lxor hc)) in E.
      rewrite <- !Z.lxor_assoc, Z.lxor_nilpotent, !Z.lxor_0_l in E. exact E. }
    symmetry. apply Hx in Heq. exact Heq.
Qed.

Definition zle (a b : Z * Z) : bool :=
  (fst a <? fst b) || ((fst a =? fst b) && (snd a <=? snd b)).

Definition ex_hash (l : list (Z * Z)) : Z :=
  fold_left (fun h kv => 31 * h + 7 * fst kv + snd kv) l 17.

(** The same contents, reached by assignment-free mutation, with two hashes. *)
Theorem C38_hash_refuted : exists d e : @fdict Z Z,
  (exists os, e = snd (run Z.eqb os (frozen Z.eqb zle ex_hash 5 [(1, 2)])))
  /\ d = frozen Z.eqb zle ex_hash 5 [(1, 3)]
  /\ dict_eq Z.eqb Z.eqb (table d) (table e) = true /\ hashval d <> hashval e.
Proof.
  eexists _, _. split; [exists [SetItem 1 9; Update [(1, 3)]]; reflexivity|].
  split; [reflexivity|]. split; [reflexivity|]. vm_compute. discriminate.
Qed.

(** * Non-trivial cases *)
Example C38_ex :
  run Z.eqb [SetItem 4 4; Get 2; DelItem 2; Len; Hash]
      (frozen Z.eqb zle ex_hash 5 [(2, 20); (1, 10); (2, 21)])
  = ([Raise ETypeError; Ok (RVal 21); Raise ETypeError; Ok (RInt 2); Ok (RInt 16902)],
     mkfd [(2, 21); (1, 10)] 16902).
Proof. vm_compute. reflexivity. Qed.

Example C38_ex_order :
  hashval (frozen Z.eqb zle ex_hash 5 [(2, 20); (1, 10)])
  = hashval (frozen Z.eqb zle ex_hash 5 [(1, 10); (2, 20)])
  /\ dict_eq Z.eqb Z.eqb (table (frozen Z.eqb zle ex_hash 5 [(2, 20); (1, 10)]))
       (table (frozen Z.eqb zle ex_hash 5 [(1, 10); (2, 20)])) = true.
Proof. vm_compute. split; reflexivity. Qed.

(** Axioms used. *)
Print Assumptions C38_frozen.
Print Assumptions C38_hash_consistent.
Print Assumptions C38_update_modifies.
Print Assumptions C38_setdefault_modifies.
Print Assumptions C38_removal_modifies.
Print Assumptions C38_equal_unequal_hash.
Print Assumptions C38_hash_refuted.
