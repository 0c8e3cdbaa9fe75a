(** What holds of any value the readers return, and of any value the writers
    accept. *)
From Coq Require Import ZArith List Bool Lia ZifyBool.
From Coq Require Import Init.Byte.
From Verif Require Import Base Bytes Utf8 Proto Spec RoundTrip.
Import ListNotations.
Open Scope Z_scope.

(** [m] only ever returns values satisfying [Q]. *)
Definition post {X A} (Q : A -> Prop) (m : M X A) : Prop :=
  forall s a s', m s = (Ok a, s') -> Q a.

Lemma post_ret X A (Q : A -> Prop) a : Q a -> post Q (@ret (st X) A a).
Proof. intros H s b s' E. unfold ret in E. assert (b = a) by congruence. subst; auto. Qed.

Lemma post_raise X A (Q : A -> Prop) e : post Q (@raise (st X) A e).
Proof. intros s b s' E. discriminate. Qed.

Lemma post_bind X A B (P : A -> Prop) (Q : B -> Prop) (m : M X A) (k : A -> M X B) :
  post P m -> (forall a, P a -> post Q (k a)) -> post Q (bind m k).
Proof.
  intros Hm Hk s b s' E. unfold bind in E.
  destruct (m s) as [[a|e|] s1] eqn:F; try discriminate.
  eapply Hk; [eapply Hm; exact F|exact E].
Qed.

Lemma post_seq X A B (Q : B -> Prop) (m : M X A) (k : M X B) :
  post Q k -> post Q (m ;;; k).
Proof.
  intros Hk. apply post_bind with (P := fun _ => True); [intros s a s' _; exact I|auto].
Qed.

Lemma post_then X A B (Q : B -> Prop) (m : M X A) (k : A -> M X B) :
  (forall a, post Q (k a)) -> post Q (bind m k).
Proof.
  intros Hk. apply post_bind with (P := fun _ => True); [intros s a s' _; exact I|auto].
Qed.

Lemma post_mono X A (P Q : A -> Prop) (m : M X A) :
  (forall a, P a -> Q a) -> post P m -> post Q m.
Proof. intros H Hm s a s' E. apply H. eapply Hm, E. Qed.

Lemma post_depth X A (Q : A -> Prop) (m : M X A) : post Q m -> post Q (with_depth m).
Proof.
  intros H. unfold with_depth. apply post_seq. intros s a s' E.
  unfold try_finally in E. destruct (m s) as [r s1] eqn:F.
  assert (r = Ok a) by congruence. subst r. eapply H, F.
Qed.

Lemma post_repeat X A (I : Z -> A -> Prop) (f : A -> M X A) F : forall n acc,
  (forall a j, I j a -> post (I (j + 1)) (f a)) ->
  forall j, I j acc -> post (fun a => exists i, j <= i <= j + Z.max 0 n /\ I i a)
    (repeatM F n f acc).
Proof.
  induction F as [|F IH]; intros n acc Hf j Hj; cbn [repeatM].
  - destruct (n <=? 0); [apply post_ret; exists j; split; [lia|exact Hj]|].
    intros s a s' E. discriminate.
  - destruct (n <=? 0) eqn:E; [apply post_ret; exists j; split; [lia|exact Hj]|].
    eapply post_bind; [apply Hf, Hj|]. intros a Ha.
    eapply post_mono; [|apply IH; [exact Hf|exact Ha]].
    intros b (i & Hi & Hb). exists i. split; [lia|exact Hb].
Qed.

(** * Values a reader can return *)

(** Base values satisfy [B], sizes of containers satisfy [CL], and attributes
    are defaults or values read. *)
Inductive decoded (env : schema) (B : ty -> value -> Prop) (CL : Z -> Prop)
  : ty -> value -> Prop :=
| D_base t v : base_ty t = true -> B t v -> decoded env B CL t v
| D_list t l : (exists n, Z.of_nat (length l) <= n /\ CL n) ->
    Forall (decoded env B CL t) l -> decoded env B CL (TList t) (VList l)
| D_set t l : (exists n, Z.of_nat (length l) <= n /\ CL n) ->
    Forall (decoded env B CL t) l -> decoded env B CL (TSet t) (VSet l)
| D_map k t l : (exists n, Z.of_nat (length l) <= n /\ CL n) ->
    Forall (fun p => decoded env B CL k (fst p) /\ decoded env B CL t (snd p)) l ->
    decoded env B CL (TMap k t) (VMap l)
| D_struct n ds fs : nth_error env n = Some ds ->
    Forall2 (fun d f => f = f_def d
                        \/ exists x, f = Some x /\ decoded env B CL (f_ty d) x) ds fs ->
    decoded env B CL (TStruct n) (VStruct n fs).

Lemma set_add_len l v : (length l <= length (set_add l v) <= S (length l))%nat.
Proof.
  unfold set_add. destruct (existsb _ l); [lia|].
  rewrite app_length. cbn [length]. lia.
Qed.

Lemma set_add_Forall Q l v : Forall Q l -> Q v -> Forall Q (set_add l v).
Proof.
  intros Hl Hv. unfold set_add. destruct (existsb _ l); [assumption|].
  apply Forall_app. split; [assumption|constructor; [assumption|constructor]].
Qed.

Lemma dict_set_len l k v : (length (dict_set l k v) <= S (length l))%nat.
Proof.
  induction l as [|[a b] l IH]; cbn [dict_set length]; [lia|].
  destruct (key_eqb k a); cbn [length]; lia.
Qed.

Lemma dict_set_Forall (K V : value -> Prop) l k v :
  Forall (fun p => K (fst p) /\ V (snd p)) l -> K k -> V v ->
  Forall (fun p => K (fst p) /\ V (snd p)) (dict_set l k v).
Proof.
  intros Hl Hk Hv. induction Hl as [|[a b] l [Ha Hb] Hl IH]; cbn [dict_set].
  - constructor; [split; assumption|constructor].
  - destruct (key_eqb k a); constructor; cbn [fst snd] in *; auto.
Qed.

Lemma find_field_nth ds fid : forall i d, find_field ds fid = Some (i, d) ->
  nth_error ds i = Some d.
Proof.
  induction ds as [|d0 ds IH]; intros i d; [discriminate|].
  cbn [find_field]. destruct (fid =? f_id d0).
  - intros E. assert (i = O /\ d = d0) as [-> ->] by (split; congruence). reflexivity.
  - destruct (find_field ds fid) as [[j d']|]; [|discriminate].
    intros E. assert (i = S j /\ d = d') as [-> ->] by (split; congruence).
    cbn [nth_error]. apply IH. reflexivity.
Qed.

Lemma set_nth_Forall2 {A} (Q : A -> option value -> Prop) ds fs i d v :
  Forall2 Q ds fs -> nth_error ds i = Some d -> Q d (Some v) ->
  Forall2 Q ds (set_nth i (Some v) fs).
Proof.
  intros H. revert i. induction H as [|d0 f ds fs H1 H2 IH]; intros [|i] E Hq;
    cbn [nth_error set_nth] in *; try discriminate.
  - assert (d = d0) by congruence. subst. constructor; assumption.
  - constructor; [assumption|]. apply IH; assumption.
Qed.

Section Post.
Context {X : Type}.
Variable P : proto X.
Variable env : schema.
Variable B : ty -> value -> Prop.
Variable CL : Z -> Prop.
Hypothesis Hbase : forall t, base_ty t = true -> post (B t) (read_base P t).
Hypothesis HCL : exists n, CL n.
Hypothesis Hlist : post (fun p => 0 <= snd p /\ CL (snd p)) (readListBegin P).
Hypothesis Hset : post (fun p => 0 <= snd p /\ CL (snd p)) (readSetBegin P).
Hypothesis Hmap : post (fun p => 0 <= snd p /\ CL (snd p)) (readMapBegin P).

Notation dec := (decoded env B CL).

Lemma read_ty_post rs F t : (forall n, post (dec (TStruct n)) (rs n)) ->
  post (dec t) (read_ty P rs F t).
Proof.
  intros Hrs. induction t as [| | | | | | | | |t IH|t IH|k IHk t IH|n]; cbn [read_ty];
    try (eapply post_mono; [|apply Hbase; reflexivity];
         intros a Ha; apply D_base; [reflexivity|exact Ha]).
  - eapply post_bind; [apply Hlist|]. intros [et sz] [H0 HC]. cbn [snd] in *.
    eapply post_bind with (P := fun l => exists i, 0 <= i <= 0 + Z.max 0 sz /\
      Z.of_nat (length l) <= i /\ Forall (dec t) l).
    + apply post_repeat with (I := fun i l => Z.of_nat (length l) <= i
        /\ Forall (dec t) l).
      * intros l j [Hl Hf]. eapply post_bind; [apply IH|]. intros v Hv.
        apply post_ret. rewrite app_length. cbn [length]. split; [lia|].
        apply Forall_app. split; [exact Hf|constructor; [exact Hv|constructor]].
      * split; [cbn; lia|constructor].
    + intros l (i & Hi & Hl & Hf). apply post_seq, post_ret. apply D_list.
      * exists sz. split; [lia|exact HC].
      * exact Hf.
  - eapply post_bind; [apply Hset|]. intros [et sz] [H0 HC]. cbn [snd] in *.
    eapply post_bind with (P := fun l => exists i, 0 <= i <= 0 + Z.max 0 sz /\
      Z.of_nat (length l) <= i /\ Forall (dec t) l).
    + apply post_repeat with (I := fun i l => Z.of_nat (length l) <= i
        /\ Forall (dec t) l).
      * intros l j [Hl Hf]. eapply post_bind; [apply IH|]. intros v Hv.
        destruct (hashable t); [|apply post_raise].
        apply post_ret. pose proof (set_add_len l v). split; [lia|].
        apply set_add_Forall; assumption.
      * split; [cbn; lia|constructor].
    + intros l (i & Hi & Hl & Hf). apply post_seq, post_ret. apply D_set.
      * exists sz. split; [lia|exact HC].
      * exact Hf.
  - eapply post_bind; [apply Hmap|]. intros [[kt et] sz] [H0 HC]. cbn [snd] in *.
    eapply post_bind with (P := fun l => exists i, 0 <= i <= 0 + Z.max 0 sz /\
      Z.of_nat (length l) <= i
      /\ Forall (fun p => dec k (fst p) /\ dec t (snd p)) l).
    + apply post_repeat with (I := fun i l => Z.of_nat (length l) <= i
        /\ Forall (fun p => dec k (fst p) /\ dec t (snd p)) l).
      * intros l j [Hl Hf]. eapply post_bind; [apply IHk|]. intros a Ha.
        eapply post_bind; [apply IH|]. intros v Hv.
        destruct (hashable k); [|apply post_raise].
        apply post_ret. pose proof (dict_set_len l a v). split; [lia|].
        apply dict_set_Forall; assumption.
      * split; [cbn; lia|constructor].
    + intros l (i & Hi & Hl & Hf). apply post_seq, post_ret. apply D_map.
      * exists sz. split; [lia|exact HC].
      * exact Hf.
  - apply Hrs.
Qed.

Lemma read_fields_post F K rv ds : (forall t, post (dec t) (rv t)) -> forall acc,
  Forall2 (fun d f => f = f_def d \/ exists x, f = Some x /\ dec (f_ty d) x) ds acc ->
  post (Forall2 (fun d f => f = f_def d \/ exists x, f = Some x /\ dec (f_ty d) x) ds)
    (read_fields P F K rv ds acc).
Proof.
  intros Hrv. induction F as [|F IH]; intros acc Hacc; cbn [read_fields].
  { intros s a s' E. discriminate. }
  apply post_then. intros [ft fid].
  destruct (ft =? T_STOP); [apply post_ret, Hacc|].
  destruct (find_field ds fid) as [[i d]|] eqn:E.
  2:{ apply post_seq, post_seq, IH, Hacc. }
  destruct (ft =? code (f_ty d)).
  2:{ apply post_seq, post_seq, IH, Hacc. }
  eapply post_bind; [apply Hrv|]. intros v Hv. apply post_seq, IH.
  eapply set_nth_Forall2; [exact Hacc|eapply find_field_nth, E|].
  right. exists v. split; [reflexivity|exact Hv].
Qed.

Theorem read_struct_post k : forall F n, post (dec (TStruct n)) (read_struct P env k F n).
Proof.
  induction k as [|k IH]; intros F n; cbn [read_struct].
  { intros s a s' E. discriminate. }
  destruct (nth_error env n) as [ds|] eqn:E; [|apply post_raise].
  apply post_depth, post_seq.
  eapply post_bind.
  - apply read_fields_post.
    + intros t. apply read_ty_post. intros m. apply IH.
    + unfold fresh. clear E. induction ds as [|d ds IHd]; cbn [map]; constructor; auto.
  - intros acc Hacc. apply post_seq, post_ret. eapply D_struct; eassumption.
Qed.

End Post.

(** * Values a writer accepts *)

(** Every base value inside [v], taken with the type the schema declares for
    it, satisfies [b], and no required attribute is unset. *)
Fixpoint fits (env : schema) (b : ty -> value -> bool) (t : ty) (v : value) {struct v}
  : bool :=
  match t, v with
  | TList et, VList l => forallb (fits env b et) l
  | TSet et, VSet l => forallb (fits env b et) l
  | TMap kt vt, VMap l =>
      forallb (fun kv => match kv with
                         | (k, x) => fits env b kt k && fits env b vt x
                         end) l
  | TStruct _, VStruct n fs =>
      match nth_error env n with
      | None => false
      | Some ds =>
          (fix go fs ds :=
             match fs, ds with
             | f :: fs', d :: ds' =>
                 match f with
                 | None => negb (f_req d)
                 | Some x => fits env b (f_ty d) x
                 end && go fs' ds'
             | _, _ => true
             end) fs ds
      end
  | _, _ => b t v
  end.

Section Accept.
Context {X : Type}.
Variable P : proto X.
Variable env : schema.
Variable b : ty -> value -> bool.
Hypothesis Hb : forall t v, post (fun _ : unit => b t v = true) (write_base P t v).

Lemma mapM_post {A} (f : A -> M X unit) (q : A -> bool) l :
  Forall (fun a => post (fun _ : unit => q a = true) (f a)) l ->
  post (fun _ : unit => forallb q l = true) (mapM_ f l).
Proof.
  induction 1 as [|a l Ha Hl IH]; cbn [mapM_ forallb]; [apply post_ret; reflexivity|].
  eapply post_bind; [exact Ha|]. cbn beta. intros u H1.
  eapply post_mono; [|exact IH]. cbn beta. intros u' H2. rewrite H1, H2. reflexivity.
Qed.

Lemma post_and X' A (Q : Prop) (m : M X' unit) (k : unit -> M X' A) :
  post (fun _ => Q) m -> post (fun _ : A => Q) (bind m k).
Proof.
  intros H. eapply post_bind; [exact H|]. intros a q s c s' _. exact q.
Qed.

Theorem write_value_post : forall v t,
  post (fun _ : unit => fits env b t v = true) (write_value P env t v).
Proof.
  induction v using value_rect'; intros t.
  1-6: destruct t; cbn [write_value fits]; apply Hb.
  - destruct t; cbn [write_value fits]; try apply Hb.
    apply post_seq, post_and, mapM_post. eapply Forall_impl; [|exact H]. auto.
  - destruct t; cbn [write_value fits]; try apply Hb.
    apply post_seq, post_and, mapM_post. eapply Forall_impl; [|exact H]. auto.
  - destruct t; cbn [write_value fits]; try apply Hb.
    apply post_seq, post_and, mapM_post. eapply Forall_impl; [|exact H].
    intros [k x] [Hk Hx]. cbn [fst snd] in *.
    eapply post_bind; [apply Hk|]. cbn beta; intros u H1. eapply post_mono; [|apply Hx].
    cbn beta; intros u' H2. rewrite H1, H2. reflexivity.
  - destruct t; cbn [write_value fits]; try apply Hb.
    destruct (nth_error env n) as [ds|]; [|apply post_raise].
    destruct (validate ds fs) eqn:V; [|apply post_raise].
    apply post_depth, post_seq, post_and.
    revert ds V. induction H as [|f fs Hf Hfs IH]; intros [|d ds] V;
      cbn [write_fields]; try (destruct f); try (apply post_ret; reflexivity).
    + cbn [validate] in V. apply post_seq.
      eapply post_bind; [apply Hf|]. cbn beta; intros u H1.
      apply post_seq. eapply post_mono; [|apply IH, V].
      cbn beta; intros u' H2. rewrite H1, H2. reflexivity.
    + cbn [validate] in V. apply andb_prop in V as [V1 V2].
      eapply post_mono; [|apply IH, V2].
      cbn beta; intros u' H2. rewrite V1, H2. reflexivity.
Qed.

End Accept.
