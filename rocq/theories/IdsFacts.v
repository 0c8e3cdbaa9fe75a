(** Facts about the numbering of fields (Ids.v). *)
From Coq Require Import String.
From Coq Require Import ZArith List Bool Lia Permutation Sorted.
From Coq Require Import ZifyBool ZifyNat ZifyN.
From Verif Require Import Base Proto Spec Ids.
Import ListNotations.
Open Scope Z_scope.
Open Scope list_scope.

Lemma cast32_id z : -2147483648 <= z <= 2147483647 -> cast32 z = z.
Proof. intros H. unfold cast32. rewrite Z.mod_small; lia. Qed.

Lemma existsb_in {A B} (f : A -> B) (eqb : B -> B -> bool) l a :
  (forall x y, eqb x y = true <-> x = y) ->
  (existsb (fun x => eqb (f x) (f a)) l = true <-> In (f a) (map f l)).
Proof.
  intros He. rewrite existsb_exists, in_map_iff. split.
  - intros [x [Hi Hx]]. apply He in Hx. exists x. auto.
  - intros [x [Hx Hi]]. exists x. split; [exact Hi|]. apply He. exact Hx.
Qed.

Lemma append_spec m l : append m l =
  if in_dec Z.eq_dec (k_id m) (map k_id l) then None
  else if in_dec string_dec (k_name m) (map k_name l) then None else Some (l ++ [m]).
Proof.
  unfold append.
  pose proof (existsb_in k_id Z.eqb l m Z.eqb_eq) as H1.
  pose proof (existsb_in k_name String.eqb l m String.eqb_eq) as H2.
  destruct (existsb (fun x => k_id x =? k_id m) l).
  - destruct (in_dec _ _ _) as [_|n]; [reflexivity|]. exfalso. apply n, H1. reflexivity.
  - destruct (in_dec _ _ _) as [i|_]; [apply H1 in i; discriminate i|].
    destruct (existsb (fun x => String.eqb (k_name x) (k_name m)) l).
    + destruct (in_dec _ _ _) as [_|n]; [reflexivity|]. exfalso. apply n, H2. reflexivity.
    + destruct (in_dec _ _ _) as [i|_]; [apply H2 in i; discriminate i|reflexivity].
Qed.

Lemma append_some m l l' : append m l = Some l' <->
  l' = l ++ [m] /\ ~ In (k_id m) (map k_id l) /\ ~ In (k_name m) (map k_name l).
Proof.
  rewrite append_spec. destruct (in_dec Z.eq_dec _ _); [|destruct (in_dec string_dec _ _)];
    (split; [intros H; try discriminate H|try tauto]).
  - injection H as <-. auto.
  - intros [-> _]. reflexivity.
Qed.

(** The member a declaration becomes when its id is [v]. *)
Definition made (o : popts) (v : Z) (d : decl) : member :=
  mkmem v (field_req o (d_req d)) (d_ty d) (d_name d) (d_val d).

(** The ids, whether they were assigned, and the warnings. *)
Fixpoint numbered (o : popts) (y : Z) (ds : list decl) : list (Z * bool) * list warning :=
  match ds with
  | [] => ([], [])
  | d :: r =>
      match field_id o y (d_key d) with
      | (v, auto, y', w) =>
          let '(l, ws) := numbered o y' r in
          ((v, auto) :: l, (w ++ if auto then [WNoKey] else []) ++ ws)
      end
  end.

Definition members (o : popts) (ds : list decl) (ids : list Z) : list member :=
  map (fun p => made o (fst p) (snd p)) (combine ids ds).

Lemma numbered_len o ds : forall y, List.length (fst (numbered o y ds)) = List.length ds.
Proof.
  induction ds as [|d ds IH]; intros y; [reflexivity|]. cbn [numbered].
  destruct (field_id o y (d_key d)) as [[[v au] y'] w]. specialize (IH y').
  destruct (numbered o y' ds). cbn [fst List.length] in *. lia.
Qed.

Lemma members_ids o : forall ds ids, List.length ids = List.length ds ->
  map k_id (members o ds ids) = ids.
Proof.
  induction ds as [|d ds IH]; intros [|i ids] H; try discriminate H; [reflexivity|].
  unfold members in *. cbn [combine map]. f_equal. apply IH. injection H as H. exact H.
Qed.
Lemma members_names o : forall ds ids, List.length ids = List.length ds ->
  map k_name (members o ds ids) = map d_name ds.
Proof.
  induction ds as [|d ds IH]; intros [|i ids] H; try discriminate H; [reflexivity|].
  unfold members in *. cbn [combine map]. f_equal. apply IH. injection H as H. exact H.
Qed.

Lemma NoDup_snoc {A} (a : list A) x b : NoDup (a ++ x :: b) <->
  ~ In x a /\ NoDup ((a ++ [x]) ++ b).
Proof.
  rewrite <- app_assoc. cbn [app]. split; [|tauto]. intros H. split; [|exact H].
  apply NoDup_remove_2 in H. intros X. apply H. apply in_or_app. auto.
Qed.

Lemma NoDup_end {A} (a : list A) x : NoDup a -> ~ In x a -> NoDup (a ++ [x]).
Proof.
  intros Ha Hx. apply (Permutation_NoDup (l := x :: a)); [|constructor; assumption].
  apply Permutation_cons_append.
Qed.

(** What the parser does, all at once. *)
Lemma parse_fields_spec o ds : forall y l ws l' ws',
  NoDup (map k_id l) -> NoDup (map k_name l) ->
  (parse_fields o ds y l ws = Some (l', ws') <->
   l' = l ++ members o ds (map fst (fst (numbered o y ds)))
   /\ ws' = ws ++ snd (numbered o y ds)
   /\ (o_strict o = true -> forall p, In p (fst (numbered o y ds)) -> snd p = false)
   /\ NoDup (map k_id l ++ map fst (fst (numbered o y ds)))
   /\ NoDup (map k_name l ++ map d_name ds)).
Proof.
  induction ds as [|d ds IH]; intros y l ws l' ws' Hi Hn; cbn [parse_fields numbered].
  - cbn [fst snd map members combine app]. rewrite !app_nil_r. split.
    + intros H. injection H as <- <-. repeat split; auto. intros _ p [].
    + intros (-> & -> & _). reflexivity.
  - destruct (field_id o y (d_key d)) as [[[v au] y'] w].
    destruct (numbered o y' ds) as [ps ws2] eqn:En. cbn [fst snd map].
    change (members o (d :: ds) (v :: map fst ps)) with (made o v d :: members o ds (map fst ps)).
    destruct (au && o_strict o) eqn:Eas.
    + split; [intros H; discriminate H|]. intros (_ & _ & H & _).
      apply andb_prop in Eas as [-> Eo]. specialize (H Eo _ (or_introl eq_refl)). discriminate H.
    + fold (made o v d).
      assert (Hs : (o_strict o = true -> forall p, In p ((v, au) :: ps) -> snd p = false)
                   <-> (o_strict o = true -> forall p, In p ps -> snd p = false)).
      { split; intros H E p Hp; [apply (H E); right; exact Hp|].
        destruct Hp as [<-|Hp]; [|exact (H E p Hp)]. cbn [snd]. rewrite E, andb_true_r in Eas. exact Eas. }
      rewrite Hs, (NoDup_snoc (map k_id l)), (NoDup_snoc (map k_name l)).
      destruct (append (made o v d) l) as [l1|] eqn:Ea.
      * apply append_some in Ea as (-> & H1 & H2). cbn [made k_id k_name] in H1, H2.
        rewrite IH.
        -- rewrite En, !map_app. cbn [fst snd map made k_id k_name].
           rewrite <- !app_assoc. cbn [app]. tauto.
        -- rewrite map_app. apply NoDup_end; assumption.
        -- rewrite map_app. apply NoDup_end; assumption.
      * split; [intros H; discriminate H|]. intros (_ & _ & _ & [H1 _] & [H2 _]). exfalso.
        rewrite append_spec in Ea. cbn [made k_id k_name] in Ea.
        destruct (in_dec Z.eq_dec _ _); [contradiction|]. destruct (in_dec string_dec _ _); [contradiction|].
        discriminate Ea.
Qed.

Lemma parse_list_spec o ds l ws : parse_list o ds = Some (l, ws) <->
  l = members o ds (map fst (fst (numbered o (-1) ds)))
  /\ ws = snd (numbered o (-1) ds)
  /\ (o_strict o = true -> forall p, In p (fst (numbered o (-1) ds)) -> snd p = false)
  /\ NoDup (map fst (fst (numbered o (-1) ds))) /\ NoDup (map d_name ds).
Proof. unfold parse_list. rewrite parse_fields_spec by constructor. reflexivity. Qed.

(** Counting the declarations without a positive key. *)
Definition implicit (d : decl) : bool :=
  match d_key d with Some k => k <=? 0 | None => true end.
Definition implicits (ds : list decl) : Z := Z.of_nat (List.length (filter implicit ds)).

Lemma numbered_app o ds1 : forall y ds2, exists y',
  fst (numbered o y (ds1 ++ ds2)) = fst (numbered o y ds1) ++ fst (numbered o y' ds2)
  /\ snd (numbered o y (ds1 ++ ds2)) = snd (numbered o y ds1) ++ snd (numbered o y' ds2).
Proof.
  induction ds1 as [|d ds1 IH]; intros y ds2; [exists y; split; reflexivity|].
  cbn [app numbered]. destruct (field_id o y (d_key d)) as [[[v au] y1] w].
  destruct (IH y1 ds2) as (y' & E1 & E2). exists y'.
  destruct (numbered o y1 (ds1 ++ ds2)), (numbered o y1 ds1). cbn [fst snd] in *. subst.
  split; [reflexivity|]. rewrite app_assoc. reflexivity.
Qed.

Lemma numbered_nth o ds : forall y i d, o_neg o = false -> nth_error ds i = Some d ->
  -2147483648 <= y - implicits ds < 0 -> y < 0 ->
  nth_error (fst (numbered o y ds)) i =
  Some (match d_key d with
        | Some k => if k <=? 0 then y - implicits (firstn i ds) else cast32 k
        | None => y - implicits (firstn i ds)
        end, implicit d).
Proof.
  induction ds as [|d0 ds IH]; intros y i d Ho Hd Hy Hy0; [destruct i; discriminate Hd|].
  cbn [numbered]. destruct (field_id o y (d_key d0)) as [[[v au] y'] w] eqn:E.
  destruct (numbered o y' ds) as [ps ws] eqn:En. cbn [fst].
  assert (X : v = (match d_key d0 with Some k => if k <=? 0 then y else cast32 k | None => y end)
              /\ au = implicit d0 /\ (implicit d0 = true -> y' = cast32 (y - 1))
              /\ (implicit d0 = false -> y' = y)).
  { unfold field_id in E. unfold implicit. rewrite Ho in E. destruct (d_key d0) as [k|].
    - destruct (k <=? 0); injection E as <- <- <- <-; repeat split; auto; discriminate.
    - injection E as <- <- <- <-; repeat split; auto; discriminate. }
  destruct X as (Xv & Xa & Xy & Xn).
  destruct i as [|i].
  - injection Hd as <-. cbn [nth_error firstn]. unfold implicits. cbn [filter List.length].
    rewrite Z.sub_0_r, Xv, Xa. reflexivity.
  - cbn [nth_error firstn] in *. specialize (IH y' i d Ho Hd). rewrite En in IH. cbn [fst] in IH.
    unfold implicits in *. cbn [filter] in *. destruct (implicit d0).
    + cbn [List.length] in *. rewrite cast32_id in Xy by lia. specialize (Xy eq_refl). subst y'.
      rewrite IH by lia. do 3 f_equal. destruct (d_key d) as [k|]; [destruct (k <=? 0)|]; lia.
    + specialize (Xn eq_refl). subst y'. apply IH; assumption.
Qed.

(** The order of the generated code. *)
Lemma insert_perm m l : Permutation (m :: l) (insert_id m l).
Proof.
  induction l as [|x l IH]; cbn [insert_id]; [apply Permutation_refl|].
  destruct (k_id m <? k_id x); [apply Permutation_refl|].
  eapply Permutation_trans; [apply perm_swap|]. apply perm_skip. exact IH.
Qed.

Lemma fold_insert_perm l : forall acc,
  Permutation (acc ++ l) (fold_left (fun acc m => insert_id m acc) l acc).
Proof.
  induction l as [|m l IH]; intros acc; cbn [fold_left]; [rewrite app_nil_r; apply Permutation_refl|].
  eapply Permutation_trans; [|apply IH].
  eapply Permutation_trans; [apply Permutation_sym, Permutation_middle|].
  change (m :: acc ++ l) with ((m :: acc) ++ l). apply Permutation_app_tail. apply insert_perm.
Qed.

Lemma order_perm l : Permutation l (in_id_order l).
Proof. exact (fold_insert_perm l []). Qed.

Definition below (a b : member) : Prop := k_id a < k_id b.

Lemma insert_sorted m l : ~ In (k_id m) (map k_id l) ->
  StronglySorted below l -> StronglySorted below (insert_id m l).
Proof.
  intros Hn H. induction H as [|x l H IH Hf]; cbn [insert_id]; [repeat constructor|].
  cbn [map] in Hn. destruct (Z.ltb_spec (k_id m) (k_id x)).
  - constructor; [constructor; assumption|]. constructor; [exact H0|].
    eapply Forall_impl; [|exact Hf]. unfold below. intros. lia.
  - constructor.
    + apply IH. intros X. apply Hn. right. exact X.
    + apply Forall_forall. intros y Hy.
      apply (Permutation_in _ (Permutation_sym (insert_perm m l))) in Hy. destruct Hy as [<-|Hy].
      * unfold below. assert (k_id x <> k_id m) by (intros E; apply Hn; left; exact E). lia.
      * rewrite Forall_forall in Hf. apply Hf. exact Hy.
Qed.

Lemma order_sorted l : NoDup (map k_id l) -> StronglySorted below (in_id_order l).
Proof.
  unfold in_id_order.
  assert (G : forall acc, NoDup (map k_id (acc ++ l)) -> StronglySorted below acc ->
    StronglySorted below (fold_left (fun acc m => insert_id m acc) l acc)).
  { induction l as [|m l IH]; intros acc Hn Hs; cbn [fold_left]; [exact Hs|].
    assert (Hm : ~ In (k_id m) (map k_id acc)).
    { rewrite map_app in Hn. cbn [map] in Hn. apply NoDup_remove_2 in Hn. intros X. apply Hn.
      apply in_or_app. auto. }
    apply IH; [|apply insert_sorted; assumption].
    eapply Permutation_NoDup; [|exact Hn]. apply Permutation_map.
    eapply Permutation_trans; [apply Permutation_sym, Permutation_middle|].
    change (m :: acc ++ l) with ((m :: acc) ++ l). apply Permutation_app_tail. apply insert_perm. }
  intros H. apply G; [exact H|constructor].
Qed.
