(** C80: the ids the compiler gives to fields and the values it gives to enum
    members, and what becomes of ids beyond 16 bits. *)
From Coq Require Import String.
From Coq Require Import ZArith List Bool Lia Permutation Sorted.
From Coq Require Import Init.Byte.
From Coq Require Import ZifyBool ZifyNat ZifyN.
From Verif Require Import Base Bytes Proto Spec Binary Compact Json Dynamic Ext Ids IdsFacts IdsWire
  CompactOrderFacts Binary.
Import ListNotations.
Open Scope Z_scope.
Open Scope list_scope.

Definition has_default (d : decl) : bool :=
  match d_val d with Some _ => true | None => false end.

(** What becomes of [required] and [optional]. *)
Definition settled (p : place) (r : freq) : freq :=
  match p, r with
  | InStruct, _ => r
  | InUnion, _ => Optional
  | InArgs, Optional => Plain
  | InArgs, _ => r
  | InThrows, _ => Plain
  end.

Definition opts (neg strict : bool) (p : place) : popts :=
  mkopts neg strict (match p with InArgs | InThrows => true | _ => false end).

Lemma defaults_count o : forall ds ids, List.length ids = List.length ds ->
  List.length (filter (fun m => match k_val m with Some _ => true | None => false end)
                 (members o ds ids))
  = List.length (filter has_default ds).
Proof.
  induction ds as [|d ds IH]; intros [|i ids] H; try discriminate H; [reflexivity|].
  unfold members in *. cbn [combine map filter made k_val fst snd]. injection H as H. specialize (IH ids H).
  unfold has_default in IH |- *. destruct (d_val d); cbn [List.length]; lia.
Qed.

(** The outcome, all at once. *)
Lemma compile_spec neg strict p ds l : compile neg strict p ds = Some l <->
  exists ws l0, parse_list (opts neg strict p) ds = Some (l0, ws)
  /\ (p = InUnion -> (List.length (filter has_default ds) <= 1)%nat)
  /\ l = map (fun m => with_req (settled p (k_req m)) m) l0.
Proof.
  unfold compile. fold (opts neg strict p). 
  destruct (parse_list (opts neg strict p) ds) as [[l0 ws]|] eqn:E.
  2:{ split; [intros H; discriminate H|]. intros (ws & l0 & H & _). discriminate H. }
  assert (N : forall m, with_req (k_req m) m = m) by (intros []; reflexivity).
  pose proof E as E2. apply parse_list_spec in E2 as (El & _).
  assert (Hd : List.length (filter (fun m => match k_val m with Some _ => true | None => false end) l0)
               = List.length (filter has_default ds)).
  { rewrite El. apply defaults_count. rewrite map_length. apply numbered_len. }
  assert (Q : forall m, In m l0 -> p = InArgs \/ p = InThrows -> k_req m <> Optional).
  { intros m Hm Hp. rewrite El in Hm. unfold members in Hm. apply in_map_iff in Hm as ([v d] & <- & _).
    cbn [made k_req fst snd]. unfold field_req. destruct (d_req d); try discriminate.
    destruct Hp as [-> | ->]; discriminate. }
  destruct p.
  - assert (M : map (fun m => with_req (settled InStruct (k_req m)) m) l0 = l0).
    { rewrite <- (map_id l0) at 2. apply map_ext. exact N. }
    split.
    + intros H. injection H as <-. exists ws, l0. split; [reflexivity|]. split; [discriminate|].
      symmetry. exact M.
    + intros (ws' & l' & H & _ & ->). injection H as <- <-. rewrite M. reflexivity.
  - unfold as_union. rewrite Hd. split.
    + intros H. destruct (1 <? _) eqn:Eb; [discriminate H|]. injection H as <-.
      exists ws, l0. split; [reflexivity|]. split; [intros _; lia|reflexivity].
    + intros (ws' & l' & H & Hu & ->). injection H as <- <-. specialize (Hu eq_refl).
      destruct (1 <? _) eqn:Eb; [lia|reflexivity].
  - assert (M : map (fun m => with_req (settled InArgs (k_req m)) m) l0 = l0).
    { rewrite <- (map_id l0) at 2. apply map_ext_in. intros m Hm. specialize (Q m Hm (or_introl eq_refl)).
      rewrite <- (N m) at 3. f_equal. destruct (k_req m); try reflexivity. congruence. }
    split.
    + intros H. injection H as <-. exists ws, l0. split; [reflexivity|]. split; [discriminate|].
      symmetry. exact M.
    + intros (ws' & l' & H & _ & ->). injection H as <- <-. rewrite M. reflexivity.
  - assert (M : map (fun m => with_req (settled InThrows (k_req m)) m) l0 = as_throws l0).
    { unfold as_throws. apply map_ext_in. intros m Hm. specialize (Q m Hm (or_intror eq_refl)).
      destruct (k_req m) eqn:Em; cbn [settled]; try reflexivity; [congruence|].
      rewrite <- Em. apply N. }
    split.
    + intros H. injection H as <-. exists ws, l0. split; [reflexivity|]. split; [discriminate|].
      symmetry. exact M.
    + intros (ws' & l' & H & _ & ->). injection H as <- <-. rewrite M. reflexivity.
Qed.

Lemma compile_ids neg strict p ds l : compile neg strict p ds = Some l ->
  l = map (fun m => with_req (settled p (k_req m)) m)
        (members (opts neg strict p) ds (map fst (fst (numbered (opts neg strict p) (-1) ds))))
  /\ map k_id l = map fst (fst (numbered (opts neg strict p) (-1) ds))
  /\ NoDup (map k_id l) /\ NoDup (map d_name ds).
Proof.
  intros H. apply compile_spec in H as (ws & l0 & H & _ & ->).
  apply parse_list_spec in H as (-> & _ & _ & H1 & H2).
  rewrite map_map. cbn [with_req k_id].
  rewrite members_ids by (rewrite map_length; apply numbered_len). repeat split; assumption.
Qed.

(** Whatever the compiler accepts has one member per declaration, in order, with
    its name, type and default, with distinct names and ids, and with the
    requiredness of its place: everything in a union optional, [optional]
    dropped from arguments, everything plain in a throws clause. *)
Theorem C80_members neg strict p ds l : compile neg strict p ds = Some l ->
  NoDup (map k_id l) /\ NoDup (map k_name l)
  /\ map (fun m => (k_name m, k_ty m, k_val m, k_req m)) l
     = map (fun d => (d_name d, d_ty d, d_val d, settled p (d_req d))) ds.
Proof.
  intros H. destruct (compile_ids _ _ _ _ _ H) as (E & _ & H1 & H2).
  set (ids := map fst (fst (numbered (opts neg strict p) (-1) ds))) in *.
  assert (Hl : List.length ids = List.length ds) by (unfold ids; rewrite map_length; apply numbered_len).
  clearbody ids.
  assert (M : map (fun m => (k_name m, k_ty m, k_val m, k_req m)) l
     = map (fun d => (d_name d, d_ty d, d_val d, settled p (d_req d))) ds).
  { rewrite E. clear -Hl. revert ids Hl. induction ds as [|d ds IH]; intros [|i ids] Hl; try discriminate Hl;
      [reflexivity|]. unfold members in *. cbn [combine map].
    cbn [with_req made fst snd k_name k_ty k_val k_req]. f_equal; [|apply IH; injection Hl as Hl; exact Hl].
    f_equal. destruct p; cbn [settled opts field_req o_args]; destruct (d_req d); reflexivity. }
  split; [exact H1|]. split; [|exact M].
  apply (f_equal (map (fun q => fst (fst (fst q))))) in M. rewrite !map_map in M. cbn [fst] in M.
  change (NoDup (map (fun x => k_name x) l)). rewrite M. exact H2.
Qed.

(** The generated code has the same members in the order of their ids. *)
Theorem C80_generated neg strict p ds l : compile neg strict p ds = Some l ->
  Permutation (map field_of l) (generated l) /\ StronglySorted Z.lt (map f_id (generated l)).
Proof.
  intros H. destruct (compile_ids _ _ _ _ _ H) as (_ & _ & H1 & _). split.
  - unfold generated. apply Permutation_map. apply order_perm.
  - unfold generated. rewrite map_map. cbn [field_of f_id].
    pose proof (order_sorted l H1) as S. induction S as [|m r _ IH Hf]; cbn [map]; constructor; [exact IH|].
    rewrite Forall_map. exact Hf.
Qed.

(** Which ids: a positive number is kept, reduced to 32 bits; the others count
    down from -1. *)
Theorem C80_ids strict p ds l i d m : compile false strict p ds = Some l ->
  implicits ds < 2147483648 -> nth_error ds i = Some d -> nth_error l i = Some m ->
  (implicit d = true -> k_id m = -1 - implicits (firstn i ds))
  /\ forall k, d_key d = Some k -> 0 < k ->
     (k <= 2147483647 -> k_id m = k)
     /\ -2147483648 <= k_id m <= 2147483647 /\ (k_id m - k) mod 4294967296 = 0.
Proof.
  intros H Hi Hd Hm. destruct (compile_ids _ _ _ _ _ H) as (_ & E & _).
  apply (map_nth_error k_id) in Hm. rewrite E in Hm.
  pose proof (numbered_nth (opts false strict p) ds (-1) i d eq_refl Hd) as N.
  assert (0 <= implicits ds) by (unfold implicits; lia).
  specialize (N ltac:(lia) ltac:(lia)).
  apply (map_nth_error fst) in N. rewrite Hm in N. injection N as N. unfold implicit. split.
  - destruct (d_key d) as [k|]; [|auto]. intros Hk. rewrite Hk in N. exact N.
  - intros k Ek Hk. rewrite Ek in N. destruct (Z.leb_spec k 0); [lia|].
    split; [intros Hb; rewrite N; apply cast32_id; lia|].
    rewrite N. unfold cast32.
    pose proof (Z.mod_pos_bound (k + 2147483648) 4294967296 ltac:(lia)).
    split; [lia|]. pose proof (Z.div_mod (k + 2147483648) 4294967296 ltac:(lia)) as D.
    replace (_ - 2147483648 - k) with (- ((k + 2147483648) / 4294967296) * 4294967296) by lia.
    apply Z.mod_mul. lia.
Qed.

(** Which declarations are accepted, when no number exceeds 32 bits. *)
Definition poskeys (ds : list decl) : list Z :=
  flat_map (fun d => match d_key d with Some k => if k <=? 0 then [] else [k] | None => [] end) ds.

Lemma numbered_poskeys o ds : o_neg o = false -> (forall k, In k (poskeys ds) -> k <= 2147483647) ->
  forall y, -2147483648 <= y - implicits ds < 0 -> y < 0 ->
  (forall v, In v (map fst (fst (numbered o y ds))) -> v <= y \/ In v (poskeys ds))
  /\ (forall v, In v (poskeys ds) -> 0 < v /\ In v (map fst (fst (numbered o y ds))))
  /\ (NoDup (map fst (fst (numbered o y ds))) <-> NoDup (poskeys ds))
  /\ map snd (fst (numbered o y ds)) = map implicit ds.
Proof.
  intros Ho Hk. induction ds as [|d ds IH]; intros y Hy Hy0.
  - cbn. repeat split; auto; try tauto; intros; constructor.
  - cbn [numbered]. destruct (field_id o y (d_key d)) as [[[v au] y'] w] eqn:E.
    unfold field_id in E. rewrite Ho in E.
    unfold poskeys in *. cbn [flat_map] in *. unfold implicits in *. cbn [filter] in *. unfold implicit in *.
    assert (Hk' : forall k, In k (poskeys ds) -> k <= 2147483647)
      by (intros k X; apply Hk; apply in_or_app; right; exact X).
    specialize (IH Hk').
    assert (A : forall y1, y1 = y - 1 -> -2147483648 <= y - Z.of_nat (S (List.length (filter implicit ds))) < 0 ->
      (forall v, In v (y :: map fst (fst (numbered o y1 ds))) -> v <= y \/ In v (poskeys ds))
      /\ (forall v, In v (poskeys ds) -> 0 < v /\ In v (y :: map fst (fst (numbered o y1 ds))))
      /\ (NoDup (y :: map fst (fst (numbered o y1 ds))) <-> NoDup (poskeys ds))
      /\ map snd (fst (numbered o y1 ds)) = map implicit ds).
    { intros y1 -> B. destruct (IH (y - 1)) as (I1 & I2 & I3 & I4); [unfold implicit in B; lia|lia|].
      split; [|split; [|split; [|exact I4]]].
      - intros u [<-|U]; [lia|]. destruct (I1 u U); [left; lia|right; assumption].
      - intros u U. destruct (I2 u U). split; [assumption|right; assumption].
      - split.
        + intros U. inversion U. tauto.
        + intros U. constructor; [|tauto]. intros V. destruct (I1 y V) as [V1|V1]; [lia|].
          destruct (I2 y V1). lia. }
    destruct (d_key d) as [k|] eqn:Ek; [destruct (Z.leb_spec k 0)|].
    + injection E as <- <- <- <-. cbn [List.length] in Hy.
      specialize (A (cast32 (y - 1)) ltac:(apply cast32_id; lia) Hy).
      destruct (numbered o (cast32 (y - 1)) ds) as [ps ws]. cbn [fst snd map] in *.
      destruct A as (A1 & A2 & A3 & A4). split; [exact A1|]. split; [exact A2|]. split; [exact A3|].
      f_equal; [|exact A4]. rewrite Ek. symmetry. apply Z.leb_le. assumption.
    + injection E as <- <- <- <-. specialize (Hk k ltac:(cbn; auto)). rewrite cast32_id by lia.
      destruct (IH y) as (I1 & I2 & I3 & I4); [lia|lia|].
      destruct (numbered o y ds) as [ps ws]. cbn [fst snd map app] in *.
      split; [|split; [|split]].
      * intros u [<-|U]; [right; left; reflexivity|]. destruct (I1 u U); [left; lia|right; right; assumption].
      * intros u [<-|U]; [split; [lia|left; reflexivity]|]. destruct (I2 u U). split; [lia|right; assumption].
      * split; intros U; inversion U as [|? ? U1 U2]; subst; constructor; try tauto.
        -- intros V. apply U1. apply I2. exact V.
        -- intros V. apply U1. destruct (I1 k V); [lia|assumption].
      * f_equal; [|exact I4]. rewrite Ek. symmetry. apply Z.leb_gt. assumption.
    + injection E as <- <- <- <-. cbn [List.length] in Hy.
      specialize (A (cast32 (y - 1)) ltac:(apply cast32_id; lia) Hy).
      destruct (numbered o (cast32 (y - 1)) ds) as [ps ws]. cbn [fst snd map] in *.
      destruct A as (A1 & A2 & A3 & A4). split; [exact A1|]. split; [exact A2|]. split; [exact A3|].
      f_equal; [|exact A4]. rewrite Ek. reflexivity.
Qed.

Theorem C80_accepted strict p ds : implicits ds < 2147483648 ->
  (forall k, In k (poskeys ds) -> k <= 2147483647) ->
  ((exists l, compile false strict p ds = Some l) <->
   NoDup (map d_name ds) /\ NoDup (poskeys ds)
   /\ (strict = true -> forall d, In d ds -> implicit d = false)
   /\ (p = InUnion -> (List.length (filter has_default ds) <= 1)%nat)).
Proof.
  intros Hi Hk.
  assert (0 <= implicits ds) by (unfold implicits; lia).
  destruct (numbered_poskeys (opts false strict p) ds eq_refl Hk (-1) ltac:(lia) ltac:(lia))
    as (_ & _ & H1 & H2).
  assert (S : (strict = true -> forall q, In q (fst (numbered (opts false strict p) (-1) ds)) -> snd q = false)
              <-> (strict = true -> forall d, In d ds -> implicit d = false)).
  { split; intros X E.
    - intros d Hd. apply (in_map implicit) in Hd. rewrite <- H2 in Hd.
      apply in_map_iff in Hd as (q & <- & Hq). exact (X E q Hq).
    - intros q Hq. apply (in_map snd) in Hq. rewrite H2 in Hq.
      apply in_map_iff in Hq as (d & <- & Hd). exact (X E d Hd). }
  split.
  - intros [l H0]. apply compile_spec in H0 as (ws & l0 & H0 & Hu & _).
    apply parse_list_spec in H0 as (_ & _ & Hs & Hn & Hm). cbn [opts o_strict] in Hs.
    exact (conj Hm (conj (proj1 H1 Hn) (conj (proj1 S Hs) Hu))).
  - intros (Hm & Hn & Hs & Hu). eexists. apply compile_spec. do 2 eexists. split; [|split; [exact Hu|reflexivity]].
    apply parse_list_spec. split; [reflexivity|]. split; [reflexivity|]. split; [exact (proj2 S Hs)|].
    split; [exact (proj2 H1 Hn)|exact Hm].
Qed.

(** With numbers of 16 bits and not too many missing ones, the schema is one the
    other properties speak of. *)
Definition written_fields (ds : list fielddef) : Prop :=
  exists strict p decls l, compile false strict p decls = Some l /\ ds = generated l
    /\ implicits decls <= 32768 /\ forall k, In k (poskeys decls) -> k <= 32767.

Theorem C80_schema_ok env : Forall written_fields env -> schema_ok env.
Proof.
  intros H n ds Hn. rewrite Forall_forall in H. apply nth_error_In in Hn.
  destruct (H ds Hn) as (strict & p & decls & l & Hc & -> & Hi & Hk).
  destruct (C80_generated _ _ _ _ _ Hc) as [Hp Hs]. split.
  - clear -Hs. induction Hs as [|x r _ IH Hf]; constructor; [|exact IH].
    intros X. rewrite Forall_forall in Hf. specialize (Hf x X). lia.
  - intros d Hd. apply (Permutation_in _ (Permutation_sym Hp)) in Hd.
    apply in_map_iff in Hd as (m & <- & Hm). cbn [field_of f_id].
    apply In_nth_error in Hm as [i Hm].
    assert (L : List.length l = List.length decls).
    { destruct (C80_members _ _ _ _ _ Hc) as (_ & _ & E).
      apply (f_equal (@List.length _)) in E. rewrite !map_length in E. exact E. }
    destruct (nth_error decls i) as [d|] eqn:Ed.
    2:{ apply nth_error_None in Ed. assert (i < List.length l)%nat by (apply nth_error_Some; congruence). lia. }
    destruct (C80_ids strict p decls l i d m Hc ltac:(lia) Ed Hm) as [I1 I2].
    unfold id16, between. destruct (implicit d) eqn:Ei.
    + specialize (I1 eq_refl). assert (B : 0 <= implicits (firstn i decls) < implicits decls).
      { unfold implicits. rewrite <- (firstn_skipn i decls) at 3. rewrite filter_app, app_length.
        assert (In d (skipn i decls)).
        { clear -Ed. revert decls Ed. induction i; intros [|x l] E; try discriminate E; cbn [skipn].
          - injection E as ->. left. reflexivity.
          - apply IHi. exact E. }
        assert (In d (filter implicit (skipn i decls))) by (apply filter_In; auto).
        destruct (filter implicit (skipn i decls)); [contradiction|]. cbn [List.length]. lia. }
      lia.
    + unfold implicit in Ei. destruct (d_key d) as [k|] eqn:Ek; [|discriminate Ei].
      destruct (I2 k eq_refl ltac:(lia)) as [I3 _]. apply nth_error_In in Ed.
      assert (k <= 32767).
      { apply Hk. unfold poskeys. apply in_flat_map. exists d. split; [exact Ed|]. rewrite Ek, Ei. left. reflexivity. }
      specialize (I3 ltac:(lia)). lia.
Qed.

Lemma members_app o ds2 ids2 : forall ds ids, List.length ids = List.length ds ->
  members o (ds ++ ds2) (ids ++ ids2) = members o ds ids ++ members o ds2 ids2.
Proof.
  induction ds as [|d ds IH]; intros [|i ids] L; try discriminate L; [reflexivity|].
  unfold members in *. cbn [app combine map]. f_equal. apply IH. injection L as L. exact L.
Qed.

(** Adding declarations at the end changes nothing before. *)
Theorem C80_prefix neg strict p ds more l : compile neg strict p (ds ++ more) = Some l ->
  exists l1 l2, compile neg strict p ds = Some l1 /\ l = l1 ++ l2.
Proof.
  intros H. apply compile_spec in H as (ws & l0 & H & Hu & ->).
  apply parse_list_spec in H as (-> & _ & Hs & Hn & Hm).
  destruct (numbered_app (opts neg strict p) ds (-1) more) as (y' & E1 & _).
  rewrite E1, (map_app fst) in Hn. rewrite map_app in Hm.
  assert (C : members (opts neg strict p) (ds ++ more) (map fst (fst (numbered (opts neg strict p) (-1) (ds ++ more))))
     = members (opts neg strict p) ds (map fst (fst (numbered (opts neg strict p) (-1) ds)))
       ++ members (opts neg strict p) more (map fst (fst (numbered (opts neg strict p) y' more)))).
  { rewrite E1, (map_app fst). apply members_app. rewrite map_length. apply numbered_len. }
  rewrite C, map_app. eexists. eexists. split; [|reflexivity].
  apply compile_spec. exists (snd (numbered (opts neg strict p) (-1) ds)). eexists.
  split; [|split; [|reflexivity]].
  - apply parse_list_spec. split; [reflexivity|]. split; [reflexivity|]. split; [|split].
    + intros E q Hq. apply (Hs E). rewrite E1. apply in_or_app. left. exact Hq.
    + clear -Hn. revert Hn. generalize (map fst (fst (numbered (opts neg strict p) (-1) ds))).
      intros a. induction a as [|x a IH]; intros H; [constructor|]. inversion H as [|? ? H1 H2]; subst.
      constructor; [intros X; apply H1; apply in_or_app; left; exact X|auto].
    + clear -Hm. revert Hm. generalize (map d_name ds).
      intros a. induction a as [|x a IH]; intros H; [constructor|]. inversion H as [|? ? H1 H2]; subst.
      constructor; [intros X; apply H1; apply in_or_app; left; exact X|auto].
  - intros E. specialize (Hu E). rewrite filter_app, app_length in Hu. lia.
Qed.

(** With --allow-neg-keys every number of 32 bits is the id. *)
Theorem C80_neg_keys strict p ds l i d m k : compile true strict p ds = Some l ->
  nth_error ds i = Some d -> nth_error l i = Some m -> d_key d = Some k ->
  -2147483648 <= k <= 2147483647 -> k_id m = k.
Proof.
  intros H Hd Hm Hk Hb. destruct (compile_ids _ _ _ _ _ H) as (_ & E & _).
  apply (map_nth_error k_id) in Hm. rewrite E in Hm. clear -Hd Hm Hk Hb.
  revert Hm. generalize (-1). revert i Hd.
  induction ds as [|d0 ds IH]; intros i Hd y Hm; [destruct i; discriminate Hd|].
  cbn [numbered] in Hm. destruct (field_id (opts true strict p) y (d_key d0)) as [[[v au] y'] w] eqn:E.
  destruct (numbered (opts true strict p) y' ds) as [ps ws] eqn:En. cbn [fst map] in Hm.
  destruct i as [|i]; cbn [nth_error] in *.
  - injection Hd as ->. injection Hm as <-. unfold field_id in E. rewrite Hk in E. cbn [opts o_neg] in E.
    destruct (k <=? 0); injection E as <- _ _ _; apply cast32_id; lia.
  - apply (IH i Hd y'). rewrite En. exact Hm.
Qed.

(** A missing number follows on from the last one that was missing or not positive,
    with or without --allow-neg-keys. *)
Lemma numbered_skip o ds1 d ds2 : (forall x, In x ds1 -> implicit x = false) -> d_key d = None ->
  forall y, nth_error (map fst (fst (numbered o y (ds1 ++ d :: ds2)))) (List.length ds1) = Some y.
Proof.
  induction ds1 as [|x ds1 IH]; intros Hi Hd y; cbn [app numbered List.length].
  - rewrite Hd. cbn [field_id]. destruct (numbered o (cast32 (y - 1)) ds2). reflexivity.
  - pose proof (Hi x (or_introl eq_refl)) as Hx. unfold implicit in Hx.
    destruct (d_key x) as [k|] eqn:Ek; [|discriminate Hx]. unfold field_id. rewrite Hx.
    specialize (IH (fun z Hz => Hi z (or_intror Hz)) Hd y).
    destruct (numbered o y (ds1 ++ d :: ds2)). cbn [fst map nth_error] in *. exact IH.
Qed.

Lemma numbered_next o d1 ds2 d2 ds3 : implicit d1 = true ->
  (forall x, In x ds2 -> implicit x = false) -> d_key d2 = None ->
  forall ds1 y v, nth_error (map fst (fst (numbered o y (ds1 ++ d1 :: ds2 ++ d2 :: ds3)))) (List.length ds1) = Some v ->
  -2147483648 < v <= 2147483647 -> (forall k, d_key d1 = Some k -> o_neg o = true -> v = k) ->
  nth_error (map fst (fst (numbered o y (ds1 ++ d1 :: ds2 ++ d2 :: ds3)))) (List.length ds1 + S (List.length ds2))
  = Some (v - 1).
Proof.
  intros H1 H2 H3. induction ds1 as [|x ds1 IH]; intros y v Hv Hb Hk; cbn [app numbered List.length] in *.
  - destruct (field_id o y (d_key d1)) as [[[u au] y'] w] eqn:E.
    pose proof (numbered_skip o ds2 d2 ds3 H2 H3 y') as N.
    destruct (numbered o y' (ds2 ++ d2 :: ds3)). cbn [fst map nth_error plus] in *.
    injection Hv as ->. rewrite N. f_equal. unfold field_id in E. unfold implicit in H1.
    destruct (d_key d1) as [k|].
    + rewrite H1 in E. destruct (o_neg o); injection E as <- <- <- <-.
      * rewrite (Hk k eq_refl eq_refl) in *. apply cast32_id. lia.
      * apply cast32_id. lia.
    + injection E as <- <- <- <-. apply cast32_id. lia.
  - destruct (field_id o y (d_key x)) as [[[u au] y'] w]. specialize (IH y' v).
    destruct (numbered o y' (ds1 ++ d1 :: ds2 ++ d2 :: ds3)). cbn [fst map nth_error plus] in *. auto.
Qed.

Theorem C80_follows neg strict p ds1 d1 ds2 d2 ds3 l m1 m2 :
  compile neg strict p (ds1 ++ d1 :: ds2 ++ d2 :: ds3) = Some l ->
  implicit d1 = true -> (forall x, In x ds2 -> implicit x = false) -> d_key d2 = None ->
  (forall k, d_key d1 = Some k -> -2147483648 < k) ->
  nth_error l (List.length ds1) = Some m1 ->
  nth_error l (List.length ds1 + S (List.length ds2)) = Some m2 ->
  -2147483648 < k_id m1 <= 2147483647 -> k_id m2 = k_id m1 - 1.
Proof.
  intros H H1 H2 H3 Hk Hm1 Hm2 Hb.
  assert (N : forall k, d_key d1 = Some k -> neg = true -> k_id m1 = k).
  { intros k E ->. eapply (C80_neg_keys strict p _ l (List.length ds1) d1 m1 k H).
    - rewrite nth_error_app2, Nat.sub_diag by lia. reflexivity.
    - exact Hm1.
    - exact E.
    - specialize (Hk k E). unfold implicit in H1. rewrite E in H1. lia. }
  destruct (compile_ids _ _ _ _ _ H) as (_ & E & _).
  apply (map_nth_error k_id) in Hm1. apply (map_nth_error k_id) in Hm2. rewrite E in Hm1, Hm2.
  rewrite (numbered_next (opts neg strict p) d1 ds2 d2 ds3 H1 H2 H3 ds1 (-1) _ Hm1 Hb N) in Hm2.
  injection Hm2 as <-. reflexivity.
Qed.

(** The compiler warns about ids that do not fit 16 bits, and only about them; it
    goes on. *)
Theorem C80_warned o ds l ws : parse_list o ds = Some (l, ws) ->
  (In WRange ws <-> exists m, In m l /\ ~ (-32768 <= k_id m <= 32767)).
Proof.
  intros H. apply parse_list_spec in H as (-> & -> & _).
  assert (E : (exists m, In m (members o ds (map fst (fst (numbered o (-1) ds))))
                /\ ~ (-32768 <= k_id m <= 32767))
              <-> exists v, In v (map fst (fst (numbered o (-1) ds))) /\ ~ (-32768 <= v <= 32767)).
  { pose proof (members_ids o ds (map fst (fst (numbered o (-1) ds)))
      ltac:(rewrite map_length; apply numbered_len)) as Q. split.
    - intros (m & Hm & Hv). exists (k_id m). split; [rewrite <- Q; apply in_map; exact Hm|exact Hv].
    - intros (v & Hm & Hv). rewrite <- Q in Hm. apply in_map_iff in Hm as (m & <- & Hm). exists m. auto. }
  rewrite E. clear E. generalize (-1). induction ds as [|d ds IH]; intros y.
  - cbn. split; [contradiction|]. intros (v & [] & _).
  - cbn [numbered]. destruct (field_id o y (d_key d)) as [[[v au] y'] w] eqn:E.
    specialize (IH y'). destruct (numbered o y' ds) as [ps ws]. cbn [fst snd map] in *.
    assert (W : In WRange w <-> ~ (-32768 <= v <= 32767)).
    { assert (R : forall z, In WRange (out_of_range z) <-> ~ (-32768 <= z <= 32767)).
      { intros z. unfold out_of_range.
        destruct ((z <? -32768) || (32767 <? z)) eqn:Ez; (split; [|intros X; try (left; reflexivity); lia]).
        - intros _. lia.
        - intros []. }
      unfold field_id in E. destruct (d_key d) as [k|].
      - destruct (k <=? 0); [destruct (o_neg o)|]; injection E as <- _ _ <-.
        + rewrite in_app_iff, R. split; [|auto]. intros [X|X]; [|exact X].
          destruct (k =? y); [destruct X|]. destruct X as [X|[]]. discriminate X.
        + rewrite <- R. cbn [In]. split; [|auto]. intros [X|X]; [discriminate X|exact X].
        + apply R.
      - injection E as <- _ _ <-. apply R. }
    rewrite !in_app_iff, IH, W. split.
    + intros [[X|X]|(u & Hu & X)]; [exists v; split; [left; reflexivity|exact X]| |].
      * destruct au; [destruct X as [X|[]]; discriminate X|destruct X].
      * exists u. split; [right; exact Hu|exact X].
    + intros (u & [<-|Hu] & X); [left; left; exact X|]. right. exists u. auto.
Qed.

(** Numbers beyond 32 bits are cut without a word (defect): two lists of
    declarations whose numbers differ by multiples of 2^32 give the same members
    and the same warnings. *)
Definition same32 (d d' : decl) : Prop :=
  d' = mkdecl (d_key d') (d_req d) (d_ty d) (d_name d) (d_val d)
  /\ match d_key d, d_key d' with
     | Some k, Some k' => 0 < k /\ 0 < k' /\ (k' - k) mod 4294967296 = 0
     | None, None => True
     | _, _ => False
     end.
Theorem C80_cut_fails o ds ds' : Forall2 same32 ds ds' -> parse_list o ds' = parse_list o ds.
Proof.
  unfold parse_list. intros H. generalize (-1) at 1 2. generalize (@nil member) (@nil warning).
  induction H as [|d d' ds ds' [H1 H2] _ IH]; intros l ws y; [reflexivity|]. cbn [parse_fields].
  assert (E : field_id o y (d_key d') = field_id o y (d_key d)).
  { unfold field_id. destruct (d_key d) as [k|], (d_key d') as [k'|]; try contradiction; [|reflexivity].
    destruct H2 as (Hk & Hk' & Hm). destruct (Z.leb_spec k 0); [lia|]. destruct (Z.leb_spec k' 0); [lia|].
    assert (C : cast32 k' = cast32 k).
    { unfold cast32. f_equal. apply Z.mod_divide in Hm; [|lia]. destruct Hm as [q Hm].
      replace (k' + 2147483648) with (k + 2147483648 + q * 4294967296) by lia. apply Z_mod_plus_full. }
    rewrite C. reflexivity. }
  rewrite E, H1. cbn [d_req d_ty d_name d_val].
  destruct (field_id o y (d_key d)) as [[[v au] y'] w]. destruct (au && o_strict o); [reflexivity|].
  destruct (append _ l); [apply IH|reflexivity].
Qed.

Example C80_cut_ex :
  let d k n := mkdecl (Some k) Plain TI32 n None in
  parse_list (mkopts false true false) [d 4294967297 "a"%string]
    = Some ([mkmem 1 Plain TI32 "a"%string None], [])
  /\ parse_list (mkopts false true false) [d 1 "a"%string; d 4294967297 "b"%string] = None
  /\ parse_list (mkopts false false false) [d 4294967295 "a"%string; mkdecl None Plain TI32 "b"%string None] = None.
Proof. repeat split. Qed.

(** A missing number anywhere in a struct empties the field table that the
    accelerated and the dynamic protocols work from (defect). *)
Theorem C80_implicit_no_table_lost strict p ds l d : compile false strict p ds = Some l ->
  implicits ds < 2147483648 -> In d ds -> implicit d = true -> thrift_spec (generated l) = [].
Proof.
  intros H Hi Hd He. destruct (C80_generated _ _ _ _ _ H) as [Hp Hs].
  apply In_nth_error in Hd as [i Hd].
  assert (L : List.length l = List.length ds).
  { destruct (C80_members _ _ _ _ _ H) as (_ & _ & E).
    apply (f_equal (@List.length _)) in E. rewrite !map_length in E. exact E. }
  destruct (nth_error l i) as [m|] eqn:Em.
  2:{ apply nth_error_None in Em. assert (i < List.length ds)%nat by (apply nth_error_Some; congruence). lia. }
  destruct (C80_ids strict p ds l i d m H Hi Hd Em) as [Hid _]. specialize (Hid He).
  assert (0 <= implicits (firstn i ds)) by (unfold implicits; lia).
  assert (X : In (k_id m) (map f_id (generated l))).
  { eapply Permutation_in; [apply Permutation_map, Hp|]. rewrite map_map. cbn [field_of f_id].
    apply in_map. eapply nth_error_In. exact Em. }
  unfold thrift_spec. destruct (generated l) as [|f r]; [reflexivity|].
  destruct (Z.leb_spec 0 (f_id f)); [|reflexivity]. exfalso. cbn [map] in *.
  inversion Hs as [|? ? _ Hf]; subst. destruct X as [X|X]; [lia|].
  rewrite Forall_forall in Hf. specialize (Hf _ X). lia.
Qed.

(** The plain binary protocol cannot write such a field: whatever the value,
    writing raises. *)
Theorem C80_binary_fails cf env m n fs ds k d x s : nth_error env n = Some ds ->
  nth_error fs k = Some (Some x) -> nth_error ds k = Some d ->
  ~ (-32768 <= f_id d <= 32767) ->
  fst (write_value (binary cf) env (TStruct m) (VStruct n fs) s) <> Ok tt.
Proof.
  intros Hn Hf Hd Hid H. cbn [write_value] in H. rewrite Hn in H.
  destruct (validate ds fs); [|discriminate H].
  destruct (with_depth _ s) as [r s'] eqn:E. cbn [fst] in H. subst r.
  apply with_depth_ok in E as (s1 & s2 & E & _).
  apply bind_ok in E as (? & s3 & _ & E). apply bind_ok in E as ([] & s4 & E & _).
  apply Hid. eapply binary_fields_fit; eassumption.
Qed.

(** Neither can the compact protocol as the first field of a struct (other than a
    bool); behind a close neighbour it can, and it is read back. *)
Theorem C80_compact_fails cf env m n fs ds k d x s : nth_error env n = Some ds ->
  (forall j, (j < k)%nat -> nth_error fs j = Some None) ->
  nth_error fs k = Some (Some x) -> nth_error ds k = Some d -> f_ty d <> TBool ->
  ~ (-32768 <= f_id d <= 32767) ->
  fst (write_value (compact cf) env (TStruct m) (VStruct n fs) s) <> Ok tt.
Proof.
  intros Hn Hj Hf Hd Ht Hid H. cbn [write_value] in H. rewrite Hn in H.
  destruct (validate ds fs); [|discriminate H].
  destruct (with_depth _ s) as [r s'] eqn:E. cbn [fst] in H. subst r.
  apply with_depth_ok in E as (s1 & s2 & E & _).
  apply bind_ok in E as (? & s3 & E0 & E). apply bind_ok in E as ([] & s4 & E & _).
  apply Hid. eapply compact_first_fit; try eassumption.
  cbn [writeStructBegin compact] in E0. unfold Compact.c_writeStructBegin in E0.
  apply bind_ok in E0 as (? & s5 & _ & E0). apply bind_ok in E0 as (? & s6 & _ & E0).
  apply bind_ok in E0 as (? & s7 & _ & E0). injection E0 as _ <-. reflexivity.
Qed.

(** The accelerated binary encoder cuts ids to 16 bits (defect): it writes the
    same bytes for schemas whose ids differ by multiples of 2^16. *)
Theorem C80_accelerated_fails big env env' n v : same16_env env env' ->
  fast_serialize (cbinary big) tt env n v = fast_serialize (cbinary big) tt env' n v.
Proof.
  intros H. unfold fast_serialize, encode_impl. destruct v; try reflexivity.
  assert (N : match nth_error env n0, nth_error env' n0 with
      | None, None => True
      | Some ds, Some ds' => Forall2 same16 ds ds' | _, _ => False end).
  { clear -H. unfold same16_env in H. revert n0. induction H as [|? ? ? ? [H _] _ IH]; intros [|m];
      cbn [nth_error]; auto; apply IH. }
  destruct (nth_error env n0) as [ds|], (nth_error env' n0) as [ds'|]; try contradiction; [|reflexivity].
  assert (V : validate ds fs = validate ds' fs).
  { clear -N. revert fs. induction N as [|d d' ds ds' (_ & E & _) _ IH]; intros fs; [reflexivity|].
    destruct fs as [|[x|] fs]; cbn [validate]; try reflexivity; rewrite ?E, ?IH; reflexivity. }
  rewrite V. destruct (validate ds' fs); [|reflexivity]. rewrite (encode_eq big env env' H). reflexivity.
Qed.

(** So a field can arrive as another one (defect): the second field set, the first
    one read. *)
Definition far_env : schema := [[mkfield 1 TI32 false None; mkfield 65537 TI32 false None]].
Theorem C80_accelerated_misnumbers_refuted : exists bs,
  fast_serialize (cbinary false) tt far_env 0 (VStruct 0 [None; Some (VInt 5)]) = Ok bs
  /\ deserialize (binary bdefault) tt far_env 0 bs = Ok (VStruct 0 [Some (VInt 5); None], []).
Proof.
  eexists. split.
  - rewrite (C80_accelerated_fails false far_env
      [[mkfield 1 TI32 false None; mkfield 1 TI32 false None]]).
    + lazy. reflexivity.
    + repeat constructor; lazy; discriminate.
  - lazy. reflexivity.
Qed.

(** What one protocol writes and reads back another refuses to write. *)
Definition near_env : schema := [[mkfield 32760 TI32 false None; mkfield 32770 TI32 false None]].
Definition near_val : value := VStruct 0 [Some (VInt 5); Some (VInt 6)].
Theorem C80_protocols_differ_refuted : exists bs,
  serialize (compact cdefault) c_init near_env 0 near_val = Ok bs
  /\ deserialize (compact cdefault) c_init near_env 0 bs = Ok (near_val, [])
  /\ serialize (binary bdefault) tt near_env 0 near_val = Raise EStructError
  /\ serialize (compact cdefault) c_init near_env 0 (VStruct 0 [None; Some (VInt 6)])
     = Raise (EProtocol TP_INVALID_DATA).
Proof.
  exists [x05; xf0; xff; x03; x0a; xa5; x0c; x00].
  split; [|split; [|split]]; vm_compute; reflexivity.
Qed.

(** Enums: the names as declared and distinct, the values given, or one more than
    the one before (0 for the first), all of 32 bits. *)
Lemma enum_values_spec ds : forall y l, enum_values y ds = Some l ->
  map fst l = map fst ds
  /\ forall i n k n' v, nth_error ds i = Some (n, k) -> nth_error l i = Some (n', v) ->
     match k with
     | Some z => v = z /\ -2147483648 <= z <= 2147483647
     | None => match i with
               | O => v = y + 1 /\ y <> 2147483647
               | S j => exists n0 u, nth_error l j = Some (n0, u) /\ v = u + 1 /\ u <> 2147483647
               end
     end.
Proof.
  induction ds as [|[n k] ds IH]; intros y l H; cbn [enum_values] in H.
  - injection H as <-. split; [reflexivity|]. intros i; destruct i; discriminate.
  - match type of H with match ?c with _ => _ end = _ => destruct c as [v|] eqn:Ev; [|discriminate H] end.
    destruct (enum_values v ds) as [l'|] eqn:E; [|discriminate H]. injection H as <-.
    destruct (IH v l' E) as [H1 H2]. split; [cbn [map fst]; f_equal; exact H1|].
    intros [|i] n1 k1 n' v' Hd Hl; cbn [nth_error] in Hd, Hl.
    + injection Hd as <- <-. injection Hl as <- <-. destruct k as [z|].
      * destruct (_ || _) eqn:Eb; [discriminate Ev|]. injection Ev as <-. split; [reflexivity|lia].
      * destruct (Z.eqb_spec y 2147483647); [discriminate Ev|]. injection Ev as <-. auto.
    + specialize (H2 i n1 k1 n' v' Hd Hl). destruct k1 as [z|]; [exact H2|].
      destruct i as [|i]; [exists n, v; cbn [nth_error]; tauto|].
      destruct H2 as (n0 & u & H2). exists n0, u. cbn [nth_error] in *. exact H2.
Qed.

Lemma names_distinct_spec l : names_distinct l = true <-> NoDup l.
Proof.
  induction l as [|n l IH]; cbn [names_distinct]; [split; [constructor|reflexivity]|].
  rewrite andb_true_iff, negb_true_iff, IH. split.
  - intros [H1 H2]. constructor; [|exact H2]. intros X.
    assert (existsb (String.eqb n) l = true) by (apply existsb_exists; exists n; split; [exact X|apply String.eqb_refl]).
    congruence.
  - intros H. inversion H as [|? ? H1 H2]; subst. split; [|exact H2].
    destruct (existsb _ l) eqn:E; [|reflexivity]. apply existsb_exists in E as (x & Hx & E).
    apply String.eqb_eq in E. subst x. contradiction.
Qed.

Theorem C80_enum ds l : compile_enum ds = Some l ->
  map fst l = map fst ds /\ NoDup (map fst ds)
  /\ forall i n k n' v, nth_error ds i = Some (n, k) -> nth_error l i = Some (n', v) ->
     n' = n /\ -2147483648 <= v <= 2147483647
     /\ match k with
        | Some z => v = z
        | None => v = match i with
                      | O => 0
                      | S j => match nth_error l j with Some (_, u) => u + 1 | None => 0 end
                      end
        end.
Proof.
  unfold compile_enum. destruct (enum_values (-1) ds) as [l0|] eqn:E; [|discriminate].
  destruct (names_distinct (map fst l0)) eqn:Ed; [|discriminate]. intros H. injection H as ->.
  destruct (enum_values_spec ds (-1) l E) as [H1 H2]. split; [exact H1|].
  rewrite H1 in Ed. apply names_distinct_spec in Ed. split; [exact Ed|].
  assert (R : forall i n k n' v, nth_error ds i = Some (n, k) -> nth_error l i = Some (n', v) ->
            -2147483648 <= v <= 2147483647).
  { induction i as [|i IH]; intros n k n' v Hd Hl; specialize (H2 _ _ _ _ _ Hd Hl).
    - destruct k as [z|]; lia.
    - destruct k as [z|]; [lia|]. destruct H2 as (n0 & u & H2 & -> & H3).
      assert (exists q, nth_error ds i = Some q) as [[n1 k1] Hq].
      { destruct (nth_error ds i) eqn:Eq; [eauto|]. apply nth_error_None in Eq.
        assert (S i < List.length ds)%nat by (apply nth_error_Some; congruence). lia. }
      specialize (IH _ _ _ _ Hq H2). lia. }
  intros i n k n' v Hd Hl. split; [|split; [exact (R _ _ _ _ _ Hd Hl)|]].
  - apply (map_nth_error fst) in Hd. apply (map_nth_error fst) in Hl. cbn [fst] in *.
    rewrite H1, Hd in Hl. injection Hl as ->. reflexivity.
  - specialize (H2 _ _ _ _ _ Hd Hl). destruct k as [z|]; [tauto|]. destruct i as [|i]; [lia|].
    destruct H2 as (n0 & u & H2 & -> & _). rewrite H2. reflexivity.
Qed.

(** With distinct names, and values from which counting on stays within 32 bits,
    an enum is accepted. *)
Theorem C80_enum_accepted ds : NoDup (map fst ds) -> Z.of_nat (List.length ds) <= 2147483647 ->
  (forall n z, In (n, Some z) ds ->
     -2147483648 <= z /\ z + Z.of_nat (List.length ds) <= 2147483647) ->
  exists l, compile_enum ds = Some l.
Proof.
  intros Hn Hl Hz.
  assert (G : forall y, y + Z.of_nat (List.length ds) <= 2147483647 -> exists l, enum_values y ds = Some l).
  { clear Hn Hl. induction ds as [|[n k] ds IH]; intros y Hy; cbn [enum_values]; [eauto|].
    cbn [List.length] in *.
    assert (Hz' : forall n z, In (n, Some z) ds ->
      -2147483648 <= z /\ z + Z.of_nat (List.length ds) <= 2147483647).
    { intros n1 z X. specialize (Hz n1 z (or_intror X)). lia. }
    destruct k as [z|].
    - specialize (Hz n z (or_introl eq_refl)). destruct (_ || _) eqn:Eb; [lia|].
      destruct (IH Hz' z ltac:(lia)) as [l E]. rewrite E. eauto.
    - destruct (Z.eqb_spec y 2147483647); [lia|]. destruct (IH Hz' (y + 1) ltac:(lia)) as [l E].
      rewrite E. eauto. }
  destruct (G (-1) ltac:(lia)) as [l E]. exists l. unfold compile_enum. rewrite E.
  destruct (enum_values_spec ds (-1) l E) as [H1 _]. rewrite H1.
  apply names_distinct_spec in Hn. rewrite Hn. reflexivity.
Qed.

(** Two members may get one value without a word (defect). *)
Theorem C80_enum_distinct_refuted : exists ds l, compile_enum ds = Some l
  /\ (exists n, In (n, None) ds) /\ ~ NoDup (map snd l).
Proof.
  exists [("A"%string, Some 1); ("B"%string, Some 0); ("C"%string, None)],
         [("A"%string, 1); ("B"%string, 0); ("C"%string, 1)].
  split; [reflexivity|]. split; [exists "C"%string; cbn; auto|].
  intros H. inversion H as [|? ? H1 _]. apply H1. cbn. auto.
Qed.

Example C80_enum_ex :
  compile_enum [("A"%string, None); ("B"%string, Some 2147483647)]
    = Some [("A"%string, 0); ("B"%string, 2147483647)]
  /\ compile_enum [("A"%string, Some 2147483647); ("B"%string, None)] = None
  /\ compile_enum [("A"%string, Some 2147483648)] = None
  /\ compile_enum [("A"%string, Some (-2147483648)); ("B"%string, None)]
     = Some [("A"%string, -2147483648); ("B"%string, -2147483647)]
  /\ compile_enum [("A"%string, None); ("A"%string, None)] = None.
Proof. repeat split. Qed.

(** Accepted and refused lists of fields. *)
Definition fd (k : option Z) (r : freq) (n : string) : decl := mkdecl k r TI32 n None.
Example C80_fields_ex :
  (* implicit ids among explicit ones, in the order of the generated code *)
  option_map (fun l => (map k_id l, map f_id (generated l)))
    (compile false false InStruct
       [fd (Some 7) Plain "a"; fd None Plain "b"; fd (Some 2) Required "c"; fd (Some 0) Optional "d"])
  = Some ([7; -1; 2; -2], [-2; -1; 2; 7])
  (* the same with --allow-neg-keys: 0 is kept *)
  /\ option_map (map k_id)
       (compile true false InStruct
          [fd (Some 7) Plain "a"; fd None Plain "b"; fd (Some (-5)) Required "c"; fd None Optional "d"])
     = Some [7; -1; -5; -6]
  (* -strict refuses missing numbers *)
  /\ compile false true InStruct [fd None Plain "a"] = None
  /\ compile true true InStruct [fd (Some 0) Plain "a"] <> None
  (* duplicates *)
  /\ compile false false InStruct [fd (Some 1) Plain "a"; fd (Some 1) Plain "b"] = None
  /\ compile false false InStruct [fd (Some 1) Plain "a"; fd (Some 2) Plain "a"] = None
  (* a missing number written out under --allow-neg-keys may collide *)
  /\ compile true false InStruct [fd None Plain "a"; fd (Some (-1)) Plain "b"] = None
  (* requiredness *)
  /\ option_map (map k_req) (compile false false InUnion
       [fd (Some 1) Required "a"; fd (Some 2) Plain "b"]) = Some [Optional; Optional]
  /\ option_map (map k_req) (compile false false InArgs
       [fd (Some 1) Required "a"; fd (Some 2) Optional "b"]) = Some [Required; Plain]
  /\ option_map (map k_req) (compile false false InThrows
       [fd (Some 1) Required "a"; fd (Some 2) Optional "b"]) = Some [Plain; Plain]
  /\ compile false false InUnion [mkdecl (Some 1) Plain TI32 "a" (Some (VInt 1));
       mkdecl (Some 2) Plain TI32 "b" (Some (VInt 1))] = None.
Proof. repeat split; discriminate. Qed.

(** The warnings. *)
Example C80_warnings_ex :
  option_map snd (parse_list (mkopts false false false)
    [fd (Some 1) Plain "a"; fd None Plain "b"; fd (Some (-3)) Plain "c"; fd (Some 32768) Plain "d"])
  = Some [WNoKey; WNonpositive; WNoKey; WRange]
  /\ option_map snd (parse_list (mkopts true false false)
    [fd (Some (-1)) Plain "a"; fd (Some (-3)) Plain "b"; fd (Some (-32769)) Plain "c"; fd None Plain "d"])
  = Some [WDiffers; WDiffers; WRange; WRange; WNoKey].
Proof. split; reflexivity. Qed.

(** [C80_schema_ok] for a struct with an implicit id. *)
Example C80_schema_ex : schema_ok [[mkfield (-1) TI32 false None; mkfield 3 TI32 true None]].
Proof.
  apply C80_schema_ok. constructor; [|constructor].
  exists false, InStruct, [fd (Some 3) Required "a"; fd None Plain "b"]. eexists.
  split; [reflexivity|]. split; [reflexivity|]. split; [cbn; lia|]. cbn. intros k [<-|[]]. lia.
Qed.

(** Axioms used. *)
Print Assumptions C80_members.
Print Assumptions C80_generated.
Print Assumptions C80_ids.
Print Assumptions C80_accepted.
Print Assumptions C80_schema_ok.
Print Assumptions C80_prefix.
Print Assumptions C80_neg_keys.
Print Assumptions C80_follows.
Print Assumptions C80_warned.
Print Assumptions C80_cut_fails.
Print Assumptions C80_implicit_no_table_lost.
Print Assumptions C80_binary_fails.
Print Assumptions C80_compact_fails.
Print Assumptions C80_accelerated_fails.
Print Assumptions C80_accelerated_misnumbers_refuted.
Print Assumptions C80_protocols_differ_refuted.
Print Assumptions C80_enum.
Print Assumptions C80_enum_accepted.
Print Assumptions C80_enum_distinct_refuted.
