(** The C decoder never returns an object with more than 64 structs nested in
    one another. *)
From Coq Require Import ZArith List Bool Lia.
From Coq Require Import Init.Byte.
From Coq Require Import ZifyBool ZifyNat ZifyN.
From Verif Require Import Base Bytes Utf8 Proto Spec RoundTrip Dynamic PostFacts Ext ExtRead.
Import ListNotations.
Open Scope Z_scope.

(** No default value contains a struct. *)
Definition flat_defaults (env : schema) : bool :=
  forallb (forallb (fun d => match f_def d with
                             | Some v => (sdepth v =? 0)%nat
                             | None => true
                             end)) env.

(** [m] leaves the depth as it was. *)
Definition keeps {X A} (m : M X A) : Prop := forall s, depth (snd (m s)) = depth s.

Lemma keeps_ret X A a : keeps (@ret (st X) A a). Proof. intros s. reflexivity. Qed.
Lemma keeps_raise X A e : keeps (@raise (st X) A e). Proof. intros s. reflexivity. Qed.
Lemma keeps_diverge X A : keeps (@diverge (st X) A). Proof. intros s. reflexivity. Qed.
Lemma keeps_bind X A B (m : M X A) (f : A -> M X B) :
  keeps m -> (forall a, keeps (f a)) -> keeps (bind m f).
Proof.
  intros Hm Hf s. unfold bind. specialize (Hm s).
  destruct (m s) as [[a|e|] s1]; cbn [snd] in *; auto. rewrite Hf. exact Hm.
Qed.
Lemma keeps_if X A (b : bool) (m m' : M X A) : keeps m -> keeps m' -> keeps (if b then m else m').
Proof. destruct b; auto. Qed.
Lemma keeps_repeat X A (f : A -> M X A) F : forall n acc, (forall a, keeps (f a)) ->
  keeps (repeatM F n f acc).
Proof.
  induction F as [|F IH]; intros n acc Hf; cbn [repeatM]; destruct (n <=? 0);
    try apply keeps_ret; [apply keeps_diverge|].
  apply keeps_bind; [apply Hf|]. intros a. apply IH, Hf.
Qed.
Lemma keeps_guard X A (m : M X A) : keeps m -> keeps (recursion_guard m).
Proof.
  intros H s. unfold recursion_guard, try_finally. destruct (_ >? 64); [reflexivity|].
  specialize (H (mkst (px s) (inp s) (out s) (depth s + 1))).
  destruct (m _) as [r s1]. cbn [snd depth] in *. lia.
Qed.
Lemma keeps_readBytes X n : keeps (@readBytes X n).
Proof.
  intros s. unfold readBytes. destruct (n <? 0); [reflexivity|].
  destruct (n <=? _); reflexivity.
Qed.

(** A type's worth of nesting: [d] structs are open. *)
Definition within (d : Z) (v : value) : Prop := Z.of_nat (sdepth v) <= 64 - d.

Lemma within_fold d l : d <= 64 -> Forall (within d) l ->
  Z.of_nat (fold_right (fun x a => Nat.max (sdepth x) a) O l) <= 64 - d.
Proof.
  intros Hd. induction 1 as [|x l Hx _ IH]; cbn [fold_right]; [lia|]. unfold within in Hx. lia.
Qed.

Section Depth.
Context {X : Type} (D : dimpl X).
Record dkeeps : Prop := {
  k_base : forall t, base_ty t = true -> keeps (decode_base D t);
  k_list : keeps (d_readListBegin D);
  k_map : keeps (d_readMapBegin D);
  k_sbeg : keeps (d_readStructBegin D);
  k_send : forall s, depth (d_readStructEnd D s) = depth s;
  k_field : keeps (d_readFieldBegin D);
  k_skip : keeps (d_skipBool D) /\ keeps (d_skipByte D) /\ keeps (d_skipI16 D)
    /\ keeps (d_skipI32 D) /\ keeps (d_skipI64 D) /\ keeps (d_skipDouble D)
    /\ keeps (d_skipString D) /\ keeps (d_skipUuid D) }.
Hypothesis K : dkeeps.

Lemma keeps_scope A (m : M X A) : keeps m -> keeps (read_scope D m).
Proof.
  intros H. unfold read_scope. apply keeps_bind; [apply (k_sbeg K)|]. intros _ s.
  unfold try_finally. specialize (H s). destruct (m s) as [r s1]. cbn [snd] in *.
  rewrite (k_send K). exact H.
Qed.

Lemma cskip_fields_keeps F sk : (forall t, keeps (sk t)) -> keeps (cskip_fields D F sk).
Proof.
  intros Hs. induction F as [|F IH]; cbn [cskip_fields]; [apply keeps_diverge|].
  apply keeps_bind; [apply (k_field K)|]. intros [t id].
  apply keeps_if; [apply keeps_ret|]. apply keeps_bind; auto.
Qed.

Lemma cskip_keeps F k : forall t, keeps (cskip D F k t).
Proof.
  destruct (k_skip K) as (K1 & K2 & K3 & K4 & K5 & K6 & K7 & K8).
  induction k as [|k IH]; intros t; cbn [cskip]; [apply keeps_diverge|].
  apply keeps_guard.
  repeat (apply keeps_if; [first [assumption|idtac]|]); try assumption.
  - apply keeps_bind; [apply (k_list K)|]. intros [et n]. apply keeps_repeat. auto.
  - apply keeps_bind; [apply (k_map K)|]. intros [[kt vt] n]. apply keeps_repeat.
    intros _. apply keeps_bind; auto.
  - apply keeps_scope, cskip_fields_keeps, IH.
  - apply keeps_raise.
Qed.

Lemma keeps_map_begin : keeps (map_begin D).
Proof.
  intros s. unfold map_begin. pose proof (k_map K s) as H.
  destruct (d_readMapBegin D s) as [[a|e|] s1]; exact H.
Qed.

(** [m], run with [d] structs open, returns values satisfying [Q] and leaves
    [d]. *)
Definition dp {A} (d : Z) (Q : A -> Prop) (m : M X A) : Prop :=
  keeps m /\ forall s a s', depth s = d -> m s = (Ok a, s') -> Q a.

Lemma dp_ret A d (Q : A -> Prop) a : Q a -> dp d Q (ret a).
Proof.
  intros H. split; [apply keeps_ret|]. intros s b s' _ E. unfold ret in E.
  assert (b = a) by congruence. subst. exact H.
Qed.
Lemma dp_raise A d (Q : A -> Prop) e : dp d Q (raise e).
Proof. split; [apply keeps_raise|]. intros s b s' _ E. discriminate. Qed.
Lemma dp_bind A B d (P : A -> Prop) (Q : B -> Prop) (m : M X A) (f : A -> M X B) :
  dp d P m -> (forall a, P a -> dp d Q (f a)) -> (forall a, keeps (f a)) -> dp d Q (bind m f).
Proof.
  intros [Km Hm] Hf Kf. split; [apply keeps_bind; assumption|].
  intros s b s' Hd E. unfold bind in E. specialize (Km s).
  destruct (m s) as [[a|e|] s1] eqn:Em; try discriminate. cbn [snd] in Km.
  destruct (Hf a (Hm _ _ _ Hd Em)) as [_ H]. exact (H s1 b s' ltac:(lia) E).
Qed.
Lemma dp_then A B d (Q : B -> Prop) (m : M X A) (f : A -> M X B) :
  keeps m -> (forall a, dp d Q (f a)) -> dp d Q (bind m f).
Proof.
  intros Km Hf. apply dp_bind with (P := fun _ => True).
  - split; [exact Km|auto].
  - auto.
  - intros a. apply Hf.
Qed.
Lemma dp_repeat A d (J : A -> Prop) (f : A -> M X A) F : forall n acc,
  (forall a, keeps (f a)) -> (forall a, J a -> dp d J (f a)) -> J acc ->
  dp d J (repeatM F n f acc).
Proof.
  induction F as [|F IH]; intros n acc Kf Hf Hj; cbn [repeatM]; destruct (n <=? 0);
    try (apply dp_ret; exact Hj).
  - split; [apply keeps_diverge|]. intros s a s' _ E. discriminate.
  - apply dp_bind with (P := J); [apply Hf, Hj| |].
    + intros a Ha. apply IH; assumption.
    + intros a. apply keeps_repeat, Kf.
Qed.

Lemma decodeValue_keeps F rs : (forall n, keeps (rs n)) -> forall t, keeps (decodeValue D rs F t).
Proof.
  intros Hrs. induction t; cbn [decodeValue]; try (apply (k_base K); reflexivity).
  - apply keeps_bind; [apply (k_list K)|]. intros [et n].
    apply keeps_bind; [apply keeps_if; [apply keeps_raise|apply keeps_ret]|]. intros _.
    apply keeps_bind; [|intros; apply keeps_ret]. apply keeps_repeat. intros acc.
    apply keeps_bind; [exact IHt|intros; apply keeps_ret].
  - apply keeps_bind; [apply (k_list K)|]. intros [et n].
    apply keeps_bind; [apply keeps_if; [apply keeps_raise|apply keeps_ret]|]. intros _.
    apply keeps_bind; [|intros; apply keeps_if; [apply keeps_ret|apply keeps_raise]].
    apply keeps_repeat. intros acc.
    apply keeps_bind; [exact IHt|intros; apply keeps_ret].
  - apply keeps_bind; [apply keeps_map_begin|]. intros [[kt vt] n].
    apply keeps_bind; [apply keeps_if; [apply keeps_raise|apply keeps_ret]|]. intros _.
    apply keeps_bind; [|intros; apply keeps_ret]. apply keeps_repeat. intros acc.
    apply keeps_bind; [exact IHt1|]. intros k. apply keeps_bind; [exact IHt2|]. intros v.
    apply keeps_if; [apply keeps_ret|apply keeps_raise].
  - apply Hrs.
Qed.

Lemma cread_fields_keeps F skf skd rv spec : (forall t, keeps (rv t)) -> forall acc,
  keeps (cread_fields D F skf skd rv spec acc).
Proof.
  intros Hrv. induction F as [|F IH]; intros acc; cbn [cread_fields]; [apply keeps_diverge|].
  apply keeps_bind; [apply (k_field K)|]. intros [t id].
  apply keeps_if; [apply keeps_ret|]. cbv zeta.
  assert (G : keeps (cskip D skf skd t ;;; cread_fields D F skf skd rv spec acc)).
  { apply keeps_bind; [apply cskip_keeps|]. intros _. apply IH. }
  apply keeps_if; [exact G|].
  destruct (nth_error spec (Z.to_nat id)) as [[[i d]|]|]; try exact G.
  apply keeps_if; [exact G|]. apply keeps_bind; [apply Hrv|]. intros v. apply IH.
Qed.

Lemma cread_struct_keeps env F k : forall n, keeps (cread_struct D env k F n).
Proof.
  induction k as [|k IH]; intros n; cbn [cread_struct]; [apply keeps_diverge|].
  destruct (nth_error env n); [|apply keeps_raise].
  apply keeps_guard, keeps_scope, keeps_bind; [|intros; apply keeps_ret].
  apply cread_fields_keeps. intros t. apply decodeValue_keeps, IH.
Qed.

Hypothesis Hflat : forall t, base_ty t = true -> post (fun v => sdepth v = O) (decode_base D t).

Lemma fold_set_within d l : forall acc, Forall (within d) acc -> Forall (within d) l ->
  Forall (within d) (fold_left set_add l acc).
Proof.
  induction l as [|v l IH]; intros acc Ha Hl; cbn [fold_left]; [exact Ha|].
  inversion Hl; subst. apply IH; [|assumption]. apply set_add_Forall; assumption.
Qed.

Lemma decodeValue_within F rs d : d <= 64 -> (forall n, dp d (within d) (rs n)) ->
  forall t, dp d (within d) (decodeValue D rs F t).
Proof.
  intros Hd Hrs.
  assert (KV : forall t, keeps (decodeValue D rs F t)).
  { apply decodeValue_keeps. intros n. apply Hrs. }
  assert (KC : forall b : bool, @keeps X unit (if b then raise ETypeError else ret tt)).
  { intros b. apply keeps_if; [apply keeps_raise|apply keeps_ret]. }
  assert (BS : forall t, base_ty t = true -> dp d (within d) (decode_base D t)).
  { intros t Hb. split; [apply (k_base K), Hb|]. intros s a s' _ E.
    pose proof (Hflat t Hb s a s' E) as H. cbn beta in H. unfold within. lia. }
  induction t; cbn [decodeValue]; try (apply BS; reflexivity).
  - apply dp_then; [apply (k_list K)|]. intros [et n].
    apply dp_then; [apply KC|]. intros _.
    apply dp_bind with (P := Forall (within d)).
    + apply dp_repeat; [|intros acc Hacc|constructor].
      * intros acc. apply keeps_bind; [apply KV|intros; apply keeps_ret].
      * apply dp_bind with (P := within d); [exact IHt| |intros; apply keeps_ret].
        intros v Hv. apply dp_ret, Forall_app. split; [exact Hacc|]. constructor; auto.
    + intros l Hl. apply dp_ret. unfold within. cbn [sdepth]. apply within_fold; assumption.
    + intros l. apply keeps_ret.
  - apply dp_then; [apply (k_list K)|]. intros [et n].
    apply dp_then; [apply KC|]. intros _.
    apply dp_bind with (P := Forall (within d)).
    + apply dp_repeat; [|intros acc Hacc|constructor].
      * intros acc. apply keeps_bind; [apply KV|intros; apply keeps_ret].
      * apply dp_bind with (P := within d); [exact IHt| |intros; apply keeps_ret].
        intros v Hv. apply dp_ret, Forall_app. split; [exact Hacc|]. constructor; auto.
    + intros l Hl. destruct (hashable t || _); [|apply dp_raise].
      apply dp_ret. unfold within. cbn [sdepth]. apply within_fold; [assumption|].
      apply fold_set_within; [constructor|exact Hl].
    + intros l. apply keeps_if; [apply keeps_ret|apply keeps_raise].
  - apply dp_then; [apply keeps_map_begin|]. intros [[kt vt] n].
    apply dp_then; [apply KC|]. intros _.
    apply dp_bind with (P := Forall (fun p => within d (fst p) /\ within d (snd p))).
    + apply dp_repeat; [|intros acc Hacc|constructor].
      * intros acc. apply keeps_bind; [apply KV|]. intros k.
        apply keeps_bind; [apply KV|]. intros v.
        apply keeps_if; [apply keeps_ret|apply keeps_raise].
      * apply dp_bind with (P := within d); [exact IHt1| |].
        -- intros k Hk. apply dp_bind with (P := within d); [exact IHt2| |].
           ++ intros v Hv. destruct (hashable t1); [|apply dp_raise].
              apply dp_ret, dict_set_Forall; assumption.
           ++ intros v. apply keeps_if; [apply keeps_ret|apply keeps_raise].
        -- intros k. apply keeps_bind; [apply KV|]. intros v.
           apply keeps_if; [apply keeps_ret|apply keeps_raise].
    + intros l Hl. apply dp_ret. unfold within. cbn [sdepth].
      induction Hl as [|[k v] l [Hk Hv] _ IH]; cbn [fold_right]; [lia|].
      unfold within in Hk, Hv. cbn [fst snd] in Hk, Hv. lia.
    + intros l. apply keeps_ret.
  - apply Hrs.
Qed.

Definition field_within (d : Z) (f : option value) : Prop :=
  match f with Some v => within d v | None => True end.

Lemma set_nth_within d i v acc : Forall (field_within d) acc -> within d v ->
  Forall (field_within d) (set_nth i (Some v) acc).
Proof.
  intros H Hv. revert i. induction H as [|f l Hf Hl IH]; intros i.
  - destruct i; constructor.
  - destruct i as [|i]; cbn [set_nth]; constructor; auto.
Qed.

Lemma cread_fields_within F skf skd rv spec d : (forall t, dp d (within d) (rv t)) ->
  forall acc, Forall (field_within d) acc ->
  dp d (Forall (field_within d)) (cread_fields D F skf skd rv spec acc).
Proof.
  intros Hrv.
  assert (KR : forall t, keeps (rv t)) by (intros t; apply Hrv).
  induction F as [|F IH]; intros acc Hacc; cbn [cread_fields].
  { split; [apply keeps_diverge|]. intros s a s' _ E. discriminate. }
  apply dp_then; [apply (k_field K)|]. intros [t id].
  destruct (t =? T_STOP); [apply dp_ret, Hacc|]. cbv zeta.
  assert (G : dp d (Forall (field_within d))
                (cskip D skf skd t ;;; cread_fields D F skf skd rv spec acc)).
  { apply dp_then; [apply cskip_keeps|]. intros _. apply IH, Hacc. }
  destruct ((id <? 0) || _); [exact G|].
  destruct (nth_error spec (Z.to_nat id)) as [[[i dd]|]|]; try exact G.
  destruct (negb _); [exact G|].
  apply dp_bind with (P := within d); [apply Hrv| |].
  - intros v Hv. apply IH, set_nth_within; assumption.
  - intros v. apply cread_fields_keeps, KR.
Qed.

Theorem cread_struct_within env F : flat_defaults env = true -> forall k d n, 0 <= d <= 64 ->
  dp d (within d) (cread_struct D env k F n).
Proof.
  intros Hdef. induction k as [|k IH]; intros d n Hd.
  { split; [apply keeps_diverge|]. intros s a s' _ E. discriminate. }
  split; [apply cread_struct_keeps|]. intros s a s' Hs E. cbn [cread_struct] in E.
  destruct (nth_error env n) as [ds|] eqn:En; [|discriminate].
  unfold recursion_guard, try_finally in E. rewrite Hs in E.
  destruct (d + 1 >? 64) eqn:Eg; [discriminate|].
  set (m := read_scope D _) in E.
  assert (Hm : dp (d + 1) (fun v => exists fs, v = VStruct n fs
                 /\ Forall (field_within (d + 1)) fs) m).
  { unfold m, read_scope. apply dp_then; [apply (k_sbeg K)|]. intros _.
    assert (Hb : dp (d + 1) (fun v => exists fs, v = VStruct n fs
                 /\ Forall (field_within (d + 1)) fs)
      (acc <- cread_fields D F F (S k) (decodeValue D (cread_struct D env k F) F)
                (thrift_spec ds) (fresh ds) ;; ret (VStruct n acc))).
    { apply dp_bind with (P := Forall (field_within (d + 1))).
      - apply cread_fields_within.
        + intros t. apply decodeValue_within; [lia|]. intros j. apply IH. lia.
        + unfold flat_defaults in Hdef. rewrite forallb_forall in Hdef.
          specialize (Hdef ds (nth_error_In _ _ En)). rewrite forallb_forall in Hdef.
          unfold fresh. apply Forall_forall. intros f Hf. apply in_map_iff in Hf as (dd & <- & Hi).
          specialize (Hdef dd Hi). destruct (f_def dd) as [v|]; [|exact I].
          cbn. unfold within. apply Nat.eqb_eq in Hdef. lia.
      - intros fs Hfs. apply dp_ret. eauto.
      - intros fs. apply keeps_ret. }
    destruct Hb as [Kb Hb]. split.
    - intros s0. unfold try_finally. specialize (Kb s0). destruct (bind _ _ s0) as [r s1].
      cbn [snd] in *. rewrite (k_send K). exact Kb.
    - intros s0 b s1 Hs0 E0. unfold try_finally in E0.
      destruct (bind _ _ s0) as [r s2] eqn:Eb. assert (r = Ok b) by congruence. subst r.
      exact (Hb _ _ _ Hs0 Eb). }
  destruct Hm as [_ Hm].
  destruct (m (mkst (px s) (inp s) (out s) (d + 1))) as [r s1] eqn:Em.
  assert (r = Ok a) by congruence. subst r.
  destruct (Hm (mkst (px s) (inp s) (out s) (d + 1)) a s1 eq_refl Em) as (fs & -> & Hfs).
  unfold within. cbn [sdepth].
  assert (L : Z.of_nat (fold_right (fun f a => match f with
            Some x => Nat.max (sdepth x) a | None => a end) O fs) <= 64 - (d + 1)).
  { clear -Hfs Eg. induction Hfs as [|f fs Hf _ IHf]; cbn [fold_right]; [lia|].
    destruct f as [v|]; [|exact IHf]. cbn in Hf. unfold within in Hf. lia. }
  lia.
Qed.

Lemma fast_depth env n x0 buf v rest : flat_defaults env = true ->
  fast_deserialize D x0 env n buf = Ok (v, rest) -> (sdepth v <= 64)%nat.
Proof.
  intros Hf H. unfold fast_deserialize in H.
  destruct (cread_struct_within env (S (length buf)) Hf 66 0 n ltac:(lia)) as [_ Hp].
  destruct (cread_struct D env 66 (S (length buf)) n (mkst x0 buf [] 0)) as [[w|e|] s'] eqn:E;
    try discriminate.
  assert (w = v) by congruence. subst w. specialize (Hp (mkst x0 buf [] 0) v s' eq_refl E). unfold within in Hp. lia.
Qed.
End Depth.

Lemma decode_base_flat {X} (D : dimpl X) t : base_ty t = true ->
  post (fun v => sdepth v = O) (decode_base D t).
Proof.
  intros Hb. destruct t; try discriminate Hb; cbn [decode_base]; apply post_then; intros a;
    apply post_ret; reflexivity.
Qed.

Lemma keeps_u8 X : keeps (@readU8 X).
Proof. apply keeps_bind; [apply keeps_readBytes|intros; apply keeps_ret]. Qed.
Lemma keeps_limit X n l : keeps (@checkLengthLimit X n l).
Proof.
  unfold checkLengthLimit. cbv zeta. repeat (apply keeps_if; [apply keeps_raise|]). apply keeps_ret.
Qed.
Lemma keeps_skip X n : keeps (@SKIPBYTES X n).
Proof. apply keeps_bind; [apply keeps_readBytes|intros; apply keeps_ret]. Qed.

Ltac kk := repeat first [assumption|apply keeps_ret|apply keeps_raise|apply keeps_readBytes|apply keeps_u8
  |apply keeps_limit|apply keeps_skip|apply keeps_bind|apply keeps_if|assumption|progress intros].

Lemma dbinary_keeps big sl cl : dkeeps (dbinary big sl cl).
Proof.
  assert (KI : keeps (eb_readI32 big)) by (unfold eb_readI32; kk).
  assert (KS : keeps (eb_readString big sl)) by (unfold eb_readString; kk).
  assert (KU : keeps eb_readUuid).
  { intros s. unfold eb_readUuid. pose proof (keeps_readBytes _ 16 s) as H.
    destruct (readBytes 16 s) as [[a|e|] s1]; exact H. }
  split.
  - intros t Hb. destruct t; try discriminate Hb;
      cbn; unfold eb_readBool, eb_readI8, eb_readI16, eb_readDouble, eb_readI64; kk.
  - cbn. unfold eb_readListBegin. kk.
  - cbn. unfold eb_readMapBegin. kk.
  - cbn. kk.
  - reflexivity.
  - cbn. unfold eb_readFieldBegin, eb_readI16. kk.
  - cbn. unfold eb_skipString. repeat split; kk.
Qed.

Lemma dcompact_keeps big sl cl : dkeeps (dcompact big sl cl).
Proof.
  assert (KV : forall m w a b, keeps (cread_varint m w a b)).
  { induction m as [|m IH]; intros w a b; cbn [cread_varint]; kk; apply IH. }
  assert (KT : forall ct, keeps (getTType ct)) by (intros ct; unfold getTType; kk).
  assert (KB : keeps ec_readBool).
  { unfold ec_readBool. apply keeps_bind; [intros s; reflexivity|]. intros x.
    destruct (rbool x); [|kk]. apply keeps_bind; [intros s; reflexivity|intros; apply keeps_ret]. }
  assert (K16 : keeps ec_readI16) by (unfold ec_readI16; apply keeps_bind; [apply KV|kk]).
  assert (K32 : keeps ec_readI32) by (unfold ec_readI32; apply keeps_bind; [apply KV|kk]).
  assert (K64 : keeps ec_readI64) by (unfold ec_readI64; apply keeps_bind; [apply KV|kk]).
  assert (KS : keeps (ec_readString sl))
    by (unfold ec_readString; apply keeps_bind; [apply KV|kk]).
  split.
  - intros t Hb. destruct t; try discriminate Hb;
      cbn; unfold ec_readI8, ec_readDouble, ec_readUuid; kk.
  - cbn. unfold ec_readListBegin. apply keeps_bind; [kk|]. intros b.
    apply keeps_bind; [apply KT|]. intros et. cbv zeta.
    apply keeps_bind; [apply keeps_if; [apply KV|kk]|]. kk.
  - cbn. unfold ec_readMapBegin. apply keeps_bind; [apply KV|]. intros n.
    apply keeps_bind; [kk|]. intros _. apply keeps_if; [|kk].
    apply keeps_bind; [kk|]. intros b. apply keeps_bind; [apply KT|]. intros kt.
    apply keeps_bind; [apply KT|]. kk.
  - intros s. reflexivity.
  - reflexivity.
  - cbn. unfold ec_readFieldBegin. apply keeps_bind; [kk|]. intros b. cbv zeta.
    apply keeps_bind; [apply KT|]. intros t. apply keeps_if; [kk|].
    apply keeps_bind; [intros s; reflexivity|]. intros x. apply keeps_bind; [kk|]. intros tag.
    apply keeps_bind; [intros s; reflexivity|]. kk.
  - cbn. unfold ec_skipString. repeat split; kk; apply KV.
Qed.
