(** Facts about immutable generated classes: attributes, the local variables of
    [read], equality and hashes. *)
From Coq Require Import String.
From Coq Require Import ZArith List Bool Lia ZifyBool ZifyNat.
From Coq Require Import Init.Byte.
From Verif Require Import Base Bytes Proto Spec Dynamic Ext ExtRead Binary Compact Json.
From Verif Require Import GenClass SpecClass GenClassFacts GenClassWrite GenClassNames.
Import ListNotations.
Open Scope Z_scope.

(** * Attributes *)

Lemma imm_setattr p k a n v a' : k_imm k = true -> setattr p k a n v = Ok a' ->
  o_slots p = true /\ ~ In n (names k) /\ k_exc k = true /\ a' = upd a n v.
Proof.
  intros Hi H. unfold setattr in H. rewrite Hi in H.
  destruct (o_slots p) eqn:Hs; [|discriminate H]. cbn [andb] in H.
  destruct (in_slots k n) eqn:En; [discriminate H|]. cbn [negb] in H.
  split; [reflexivity|]. split; [apply mem_not; exact En|].
  split; [|eapply base_setattr_upd; exact H].
  unfold base_setattr in H. rewrite Hs, En in H. destruct (k_exc k); [reflexivity|discriminate H].
Qed.

Lemma imm_delattr p k a n a' : k_imm k = true -> delattr p k a n = Ok a' ->
  o_slots p = true /\ ~ In n (names k) /\ In n (map fst a) /\ a' = del a n.
Proof.
  intros Hi H. unfold delattr in H. rewrite Hi in H.
  destruct (o_slots p) eqn:Hs; [|discriminate H]. cbn [andb] in H.
  destruct (in_slots k n) eqn:En; [discriminate H|]. cbn [negb] in H.
  split; [reflexivity|]. split; [apply mem_not; exact En|].
  unfold base_delattr in H. destruct (assoc n a) eqn:E; [|discriminate H].
  split; [|congruence].
  destruct (in_dec string_dec n (map fst a)) as [|Hn]; [assumption|].
  rewrite (assoc_None n a Hn) in E. discriminate E.
Qed.

Lemma assoc_del {A} (l : list (string * A)) n m : m <> n -> assoc m (del l n) = assoc m l.
Proof.
  intros H. induction l as [|[x w] l IH]; cbn [del assoc]; [reflexivity|].
  destruct (String.eqb_spec n x) as [->|].
  - destruct (String.eqb_spec m x); [contradiction|reflexivity].
  - cbn [assoc]. rewrite IH. reflexivity.
Qed.

(** * The local variables of [read] *)

Section Locals.
Context {X : Type}.
Variable P : proto X.
Variable p : gprog.

(** The loop ends in a header with type STOP. *)
Lemma gread_fields_stop {A} skfuel sh rv gs (begin : A -> Z -> Z -> A) put :
  forall fuel acc s a s',
  gread_fields P fuel skfuel sh rv gs begin put acc s = (Ok a, s') ->
  exists e fid s1 s2, a = begin e T_STOP fid
    /\ readFieldBegin P s1 = (Ok (T_STOP, fid), s2)
    /\ mem "iprot" sh = false /\ mem "TType" sh = false.
Proof.
  induction fuel as [|fuel IH]; intros acc s a s' H; [discriminate H|].
  cbn [gread_fields] in H. apply bind_ok in H as (? & s1 & Hu1 & H).
  apply bind_ok in H as ([ty fid] & s2 & Hr & H). apply bind_ok in H as (? & s3 & Hu2 & H).
  destruct (Z.eqb_spec ty T_STOP) as [->|_].
  - injection H as <- _. exists acc, fid, s1, s2. split; [reflexivity|]. split; [assumption|].
    unfold use in Hu1, Hu2. destruct (mem "iprot" sh); [discriminate Hu1|].
    destruct (mem "TType" sh); [discriminate Hu2|]. auto.
  - destruct (gfind gs fid) as [g|].
    + destruct (ty =? code (ety (g_ty g))).
      * apply bind_ok in H as (? & s4 & _ & H). apply bind_ok in H as (? & s5 & _ & H).
        apply bind_ok in H as (? & s6 & _ & H). eapply IH; eauto.
      * apply bind_ok in H as (? & s4 & _ & H). apply bind_ok in H as (? & s5 & _ & H).
        eapply IH; eauto.
    + apply bind_ok in H as (? & s4 & _ & H). apply bind_ok in H as (? & s5 & _ & H).
      eapply IH; eauto.
Qed.

Lemma assoc_locals_kw gs env n : In n (map (fun f => esc (g_name f)) gs) ->
  assoc n (locals_kw gs env) = Some (match assoc n env with Some v => v | None => None end).
Proof.
  unfold locals_kw. induction gs as [|g gs IH]; intros H; [destruct H|]. cbn [map assoc].
  destruct (String.eqb_spec n (esc (g_name g))) as [->|Hne]; [reflexivity|].
  apply IH. destruct H as [H|H]; [congruence|assumption].
Qed.

Lemma imm_gives k f kw a : o_enum p = false -> k_imm k = true -> NoDup (names k) ->
  In f (k_fields k) -> construct p k kw = Ok a ->
  assoc (g_name f) a = Some (arg p kw f).
Proof.
  intros Ho Hi Hnd Hf Hc. apply construct_init in Hc.
  apply in_split in Hf as (l1 & l2 & El). unfold names in *. rewrite El in *.
  assert (Hp : forall g, put_name k g = g_name g) by (intros g; unfold put_name; rewrite Hi; reflexivity).
  rewrite <- Hp. eapply (init_gives p k l1 f l2); [assumption| |exact Hc].
  rewrite map_app in Hnd. cbn [map] in Hnd. apply NoDup_remove_2 in Hnd.
  intros H. apply Hnd. apply in_app_iff. right.
  apply in_map_iff in H as (g & E & Hg). rewrite !Hp in E. rewrite <- E. apply in_map. assumption.
Qed.

(** What an immutable class is built from. *)
Lemma imm_read dfuel fuel n k s x s' : nth_error (p_classes p) n = Some k -> k_imm k = true ->
  gread_struct p P dfuel fuel n s = (Ok x, s') ->
  exists e fid s1 s2 a, x = PObj n a
    /\ readFieldBegin P s1 = (Ok (T_STOP, fid), s2)
    /\ construct p k (locals_kw (k_fields k) (bind_header e T_STOP fid)) = Ok a
    /\ forall m, In m (map (fun f => esc (g_name f)) (k_fields k)) ->
         m <> "iprot"%string /\ m <> "TType"%string /\ m <> "cls"%string.
Proof.
  intros Ek Hi H. destruct dfuel as [|d]; [discriminate H|]. cbn [gread_struct] in H.
  rewrite Ek, Hi in H. apply with_depth_ok in H as (t1 & t2 & H).
  apply bind_ok in H as (? & t3 & _ & H). apply bind_ok in H as (env & t4 & Hl & H).
  apply bind_ok in H as (? & t5 & _ & H). apply bind_ok in H as (? & t6 & Hu & H).
  apply bind_ok in H as (a & t7 & Hc & H). injection H as <- _.
  apply gread_fields_stop in Hl as (e & fid & s1 & s2 & -> & Hr & H1 & H2).
  exists e, fid, s1, s2, a. split; [reflexivity|]. split; [assumption|]. split.
  - destruct (construct p k _) as [b| |]; try discriminate Hc. injection Hc as -> _. reflexivity.
  - unfold use in Hu. destruct (mem "cls" _) eqn:H3; [discriminate Hu|].
    apply mem_not in H1, H2, H3. intros m Hm. repeat split; intros ->; contradiction.
Qed.

Lemma imm_local dfuel fuel n k f s x s' : o_enum p = false ->
  nth_error (p_classes p) n = Some k -> k_imm k = true -> NoDup (names k) ->
  In f (k_fields k) -> esc (g_name f) = g_name f ->
  gread_struct p P dfuel fuel n s = (Ok x, s') ->
  exists e fid s1 s2 a, x = PObj n a
    /\ readFieldBegin P s1 = (Ok (T_STOP, fid), s2)
    /\ assoc (g_name f) a
       = Some (match assoc (g_name f) (bind_header e T_STOP fid) with
               | Some v => v | None => None end).
Proof.
  intros Ho Ek Hi Hnd Hf He H.
  destruct (imm_read _ _ _ _ _ _ _ Ek Hi H) as (e & fid & s1 & s2 & a & -> & Hr & Hc & _).
  exists e, fid, s1, s2, a. split; [reflexivity|]. split; [assumption|].
  rewrite (imm_gives _ _ _ _ Ho Hi Hnd Hf Hc). unfold arg.
  rewrite assoc_locals_kw by (apply (in_map (fun f => esc (g_name f))); assumption).
  rewrite He. reflexivity.
Qed.
End Locals.

Lemma header_ftype e ty fid :
  assoc "ftype" (bind_header e ty fid) = Some (Some (PVal (VInt ty))).
Proof. unfold bind_header. rewrite !assoc_upd. reflexivity. Qed.
Lemma header_fid e ty fid : assoc "fid" (bind_header e ty fid) = Some (Some (PVal (VInt fid))).
Proof. unfold bind_header. rewrite !assoc_upd. reflexivity. Qed.
Lemma header_fname e ty fid : assoc "fname" (bind_header e ty fid) = Some None.
Proof. unfold bind_header. rewrite !assoc_upd. reflexivity. Qed.

(** The id in a STOP header. *)
Definition stop_zero {X} (P : proto X) : Prop :=
  forall s fid s', readFieldBegin P s = (Ok (T_STOP, fid), s') -> fid = 0.

Lemma stop_zero_binary cf : stop_zero (binary cf).
Proof.
  intros s fid s' H. cbn [binary readFieldBegin] in H. unfold b_readFieldBegin in H.
  apply bind_ok in H as (ty & s1 & _ & H).
  destruct (Z.eqb_spec ty T_STOP) as [_|Hn].
  - injection H as _ <- _. reflexivity.
  - apply bind_ok in H as (id & s2 & _ & H). injection H as E _ _. contradiction.
Qed.
Lemma stop_zero_compact cf : stop_zero (compact cf).
Proof.
  intros s fid s' H. cbn [compact readFieldBegin] in H. unfold c_readFieldBegin in H.
  apply bind_ok in H as (? & s1 & _ & H). apply bind_ok in H as (ty & s2 & _ & H).
  destruct (Z.eqb_spec (Z.land ty 15) T_STOP) as [_|Hn].
  - injection H as <- _. reflexivity.
  - apply bind_ok in H as (id & s3 & _ & H). apply bind_ok in H as (? & s4 & _ & H).
    apply bind_ok in H as (? & s5 & _ & H). apply bind_ok in H as (t & s6 & Ht & H).
    injection H as -> _ _. exfalso. apply Hn. unfold getTType in Ht.
    rewrite <- Z.land_assoc in Ht. change (Z.land 15 15) with 15 in Ht.
    destruct (TTYPES (Z.land ty 15)) as [t|] eqn:E; [|discriminate Ht].
    injection Ht as -> _. revert E. unfold TTYPES.
    repeat match goal with |- (if ?b then _ else _) = _ -> _ =>
      let Hb := fresh in
      destruct b eqn:Hb; [first [discriminate|intros _; apply Z.eqb_eq in Hb; exact Hb]|] end.
    discriminate.
Qed.

Lemma jtype_stop {S} nm (s s' : S) : jtype nm s <> (Ok T_STOP, s').
Proof.
  unfold jtype. intros H. destruct (find _ CTYPES) as [[t q]|] eqn:E; [|discriminate H].
  injection H as -> _. apply find_some in E as [E _]. cbn in E. intuition discriminate.
Qed.
Lemma stop_zero_json l : stop_zero (json l).
Proof.
  intros s fid s' H. cbn [json readFieldBegin] in H. unfold j_readFieldBegin in H.
  apply bind_ok in H as (d & s1 & _ & H). destruct (is_byte d RBRACE).
  - injection H as <- _. reflexivity.
  - apply bind_ok in H as (id & s2 & _ & H). apply bind_ok in H as (? & s3 & _ & H).
    apply bind_ok in H as (nm & s4 & _ & H). apply bind_ok in H as (t & s5 & Ht & H).
    injection H as -> _ _. exfalso. eapply jtype_stop. exact Ht.
Qed.

(** * Equality and hashes *)

Section Eq.
Variable p : gprog.
Variable veq same : option pv -> option pv -> bool.

Lemma slots_eq_true ns a b : slots_eq veq ns a b = Ok true <->
  forall n, In n ns -> exists x y, assoc n a = Some x /\ assoc n b = Some y /\ veq x y = true.
Proof.
  induction ns as [|m ns IH]; cbn [slots_eq]; [split; [intros _ n []|reflexivity]|].
  unfold getattr. destruct (assoc m a) as [x|] eqn:Ea.
  - destruct (assoc m b) as [y|] eqn:Eb.
    + destruct (veq x y) eqn:Ev.
      * rewrite IH. split.
        -- intros H n [<-|Hn]; [eauto|auto].
        -- intros H n Hn. apply H. right. assumption.
      * split; [discriminate|]. intros H. destruct (H m (or_introl eq_refl)) as (x' & y' & E1 & E2 & E3).
        congruence.
    + split; [discriminate|]. intros H. destruct (H m (or_introl eq_refl)) as (x' & y' & E1 & E2 & E3).
      congruence.
  - split; [discriminate|]. intros H. destruct (H m (or_introl eq_refl)) as (x' & y' & E1 & E2 & E3).
    congruence.
Qed.

Lemma assoc_In {A} (l : list (string * A)) n x : assoc n l = Some x -> In (n, x) l.
Proof.
  induction l as [|[m w] l IH]; cbn [assoc]; [discriminate|].
  destruct (String.eqb_spec n m) as [->|]; [intros [= ->]; left; reflexivity|]. right. auto.
Qed.
Lemma In_assoc {A} (l : list (string * A)) n x : NoDup (map fst l) -> In (n, x) l -> assoc n l = Some x.
Proof.
  induction l as [|[m w] l IH]; intros Hnd Hin; [destruct Hin|]. cbn [assoc map fst] in *.
  inversion_clear Hnd as [|? ? Hm Hnd'].
  destruct Hin as [E|Hin].
  - injection E as -> ->. rewrite String.eqb_refl. reflexivity.
  - destruct (String.eqb_spec n m) as [->|]; [|auto].
    exfalso. apply Hm. apply in_map_iff. exists (m, x). auto.
Qed.

Lemma adict_eq_true a b : adict_eq veq same a b = true <->
  length a = length b
  /\ forall n x, In (n, x) a -> exists y, assoc n b = Some y /\ (same x y = true \/ veq x y = true).
Proof.
  unfold adict_eq. rewrite andb_true_iff, Nat.eqb_eq, forallb_forall. split; intros [H1 H2]; (split; [assumption|]).
  - intros n x Hx. specialize (H2 _ Hx). cbn [fst snd] in H2.
    destruct (assoc n b) as [y|]; [|discriminate]. exists y. split; [reflexivity|].
    apply orb_prop. assumption.
  - intros [n x] Hx. cbn [fst snd]. destruct (H2 n x Hx) as (y & -> & Hy).
    apply orb_true_iff. assumption.
Qed.

Lemma adict_sym a b : NoDup (map fst a) -> NoDup (map fst b) ->
  (forall x y, same x y = same y x) -> (forall x y, veq x y = veq y x) ->
  adict_eq veq same a b = true -> adict_eq veq same b a = true.
Proof.
  intros Ha Hb Hs Hv. rewrite !adict_eq_true. intros [Hl H]. split; [congruence|].
  intros n y Hy.
  assert (Hin : In n (map fst a)).
  { apply (NoDup_length_incl Ha (l' := map fst b)).
    - rewrite !map_length. lia.
    - intros m Hm. apply in_map_iff in Hm as ([m' x] & <- & Hx).
      destruct (H m' x Hx) as (w & Hw & _). apply assoc_In in Hw.
      apply in_map_iff. exists (m', w). auto.
    - apply in_map_iff. exists (n, y). auto. }
  apply in_map_iff in Hin as ([n' x] & E & Hx). cbn [fst] in E. subst n'.
  exists x. split; [apply In_assoc; assumption|].
  destruct (H n x Hx) as (w & Hw & Hr). rewrite (In_assoc b n y Hb Hy) in Hw. injection Hw as <-.
  rewrite Hs, Hv. assumption.
Qed.

Variable vhash : option pv -> outcome Z.
Variable chash : nat -> Z.
Variable thash : list Z -> Z.

Lemma hash_all_eq l : forall l', Forall2 (fun x y => vhash x = vhash y) l l' ->
  hash_all vhash l = hash_all vhash l'.
Proof.
  induction 1 as [|x y l l' E _ IH]; [reflexivity|]. cbn [hash_all]. rewrite E, IH. reflexivity.
Qed.

Lemma collect_rel a b gs :
  (forall f, In f gs -> exists x y, assoc (esc (g_name f)) a = Some x
     /\ assoc (esc (g_name f)) b = Some y /\ vhash x = vhash y) ->
  exists l l', collect gs a = Ok l /\ collect gs b = Ok l'
    /\ Forall2 (fun x y => vhash x = vhash y) l l'.
Proof.
  induction gs as [|g gs IH]; intros H.
  - exists [], []. repeat split. constructor.
  - destruct IH as (l & l' & E1 & E2 & Hl); [intros; apply H; right; assumption|].
    destruct (H g (or_introl eq_refl)) as (x & y & Ex & Ey & Hh).
    exists (x :: l), (y :: l'). cbn [collect]. unfold getattr.
    rewrite Ex, Ey, E1, E2. repeat split. constructor; assumption.
Qed.

Lemma eq_hash n m k a b : nth_error (p_classes p) n = Some k -> plain k ->
  (forall x y, veq x y = true -> vhash x = vhash y) ->
  (forall x y, same x y = true -> vhash x = vhash y) ->
  (forall f, In f (names k) -> exists x, assoc f a = Some x) ->
  obj_eq p veq same n m a b = Ok true ->
  obj_hash p vhash chash thash n a = obj_hash p vhash chash thash m b.
Proof.
  intros Ek Hp Hv Hs Ha H. unfold obj_eq in H.
  destruct (Nat.eqb_spec n m) as [->|]; [|discriminate H]. cbn [negb] in H.
  unfold obj_hash. rewrite Ek in *. destruct (k_imm k); [|reflexivity].
  destruct (collect_rel a b (k_fields k)) as (l & l' & -> & -> & Hl).
  - intros f Hf. rewrite (esc_plain k) by assumption.
    assert (Hn : In (g_name f) (names k)) by (apply in_map; assumption).
    destruct (o_slots p).
    + destruct (proj1 (slots_eq_true _ _ _) H _ Hn) as (x & y & E1 & E2 & E3).
      exists x, y. auto.
    + injection H as H. apply adict_eq_true in H as [_ H].
      destruct (Ha _ Hn) as [x Hx]. destruct (H _ _ (assoc_In _ _ _ Hx)) as (y & Hy & [E|E]);
        exists x, y; auto.
  - rewrite (hash_all_eq l l' Hl). reflexivity.
Qed.
End Eq.
