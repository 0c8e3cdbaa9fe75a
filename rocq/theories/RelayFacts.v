(** Whatever a reader returns is an object of the schema, so that it can be
    written again. *)
From Coq Require Import ZArith List Bool Lia ZifyBool ZifyNat.
From Coq Require Import Init.Byte.
From Verif Require Import Base Bytes Utf8 Proto Spec RoundTrip PostFacts Closure FrameFacts.
Import ListNotations.
Open Scope Z_scope.

(** * Vocabulary *)

(** The schema with no field required. *)
Definition relax (env : schema) : schema :=
  map (map (fun d => mkfield (f_id d) (f_ty d) false (f_def d))) env.

(** Set elements and map keys are of types whose objects Python can hash. *)
Fixpoint keyed (t : ty) : bool :=
  match t with
  | TList a => keyed a
  | TSet a => hashable a && keyed a
  | TMap k a => hashable k && keyed k && keyed a
  | _ => true
  end.
Definition schema_keyed (env : schema) : bool :=
  forallb (forallb (fun d => keyed (f_ty d))) env.

(** Defaults are well-formed objects of their field's type without structs in
    them. *)
Definition defaults_ok (env : schema) (SL CL : Z) : bool :=
  forallb (forallb (fun d => match f_def d with
                             | None => true
                             | Some x => wf env SL CL (f_ty d) x && (sdepth x =? 0)%nat
                             end)) env.

(** Every required attribute is set, at any depth. *)
Definition complete (env : schema) (t : ty) (v : value) : bool :=
  fits env (fun _ _ => true) t v.

(** * [wfd] with another condition on base values *)

Fixpoint wfb (B : ty -> value -> bool) (env : schema) (CL : Z) (t : ty) (v : value)
  {struct v} : bool :=
  match t, v with
  | TList et, VList l => len_le l CL && forallb (wfb B env CL et) l
  | TSet et, VSet l =>
      len_le l CL && hashable et && nodup_keys l && forallb (wfb B env CL et) l
  | TMap kt vt, VMap l =>
      len_le l CL && hashable kt && nodup_keys (map fst l)
      && forallb (fun kv => match kv with
                            | (k, x) => wfb B env CL kt k && wfb B env CL vt x
                            end) l
  | TStruct n, VStruct m fs =>
      (n =? m)%nat
      && match nth_error env n with
         | None => false
         | Some ds =>
             (fix go fs ds :=
                match fs, ds with
                | [], [] => true
                | f :: fs', d :: ds' =>
                    match f with
                    | None => negb (f_req d)
                    | Some x => wfb B env CL (f_ty d) x
                    end && go fs' ds'
                | _, _ => false
                end) fs ds
         end
  | _, _ => B t v
  end.

Lemma forallb_imp {A} (p q : A -> bool) l :
  Forall (fun a => p a = true -> q a = true) l -> forallb p l = true -> forallb q l = true.
Proof.
  induction 1 as [|a l Ha Hl IH]; cbn [forallb]; [reflexivity|].
  intros E. apply andb_prop in E as [E1 E2]. rewrite Ha, IH by assumption. reflexivity.
Qed.

Lemma wfb_imp (B B' : ty -> value -> bool) env env' CL :
  (forall t v, B t v = true -> B' t v = true) ->
  (forall n ds, nth_error env n = Some ds -> exists ds', nth_error env' n = Some ds'
     /\ map f_ty ds' = map f_ty ds /\ Forall2 (fun d d' => f_req d' = true -> f_req d = true) ds ds') ->
  forall v t, wfb B env CL t v = true -> wfb B' env' CL t v = true.
Proof.
  intros HB HE. induction v using value_rect'; intros t E.
  1-6: destruct t; cbn [wfb] in *; auto.
  - destruct t; cbn [wfb] in *; auto.
    apply andb_prop in E as [E1 E2]. rewrite E1. cbn [andb].
    revert E2. apply forallb_imp. eapply Forall_impl; [|exact H]. auto.
  - destruct t; cbn [wfb] in *; auto.
    apply andb_prop in E as [E1 E2]. rewrite E1. cbn [andb].
    revert E2. apply forallb_imp. eapply Forall_impl; [|exact H]. auto.
  - destruct t; cbn [wfb] in *; auto.
    apply andb_prop in E as [E1 E2]. rewrite E1. cbn [andb].
    revert E2. apply forallb_imp. eapply Forall_impl; [|exact H].
    intros [k x] [Hk Hx] E. cbn [fst snd] in *. apply andb_prop in E as [Ea Eb].
    rewrite Hk, Hx by assumption. reflexivity.
  - destruct t; cbn [wfb] in *; auto.
    apply andb_prop in E as [E1 E2]. rewrite E1. cbn [andb].
    destruct (nth_error env n0) as [ds|] eqn:En; [|discriminate].
    destruct (HE _ _ En) as (ds' & En' & Ht & Hr). rewrite En'.
    clear En En' E1. revert ds ds' E2 Ht Hr. induction H as [|f fs Hf Hfs IH];
      intros [|d ds] [|d' ds'] E Ht Hr; try discriminate; try reflexivity.
    cbn [map] in Ht. assert (f_ty d' = f_ty d /\ map f_ty ds' = map f_ty ds) as [H1 H2]
      by (split; congruence).
    apply andb_prop in E as [Ea Eb].
    inversion Hr as [|? ? ? ? R1 R2]; subst.
    rewrite (IH ds ds' Eb H2 R2), andb_true_r.
    destruct f as [x|].
    + rewrite H1. apply Hf, Ea.
    + destruct (f_req d'); [|reflexivity]. rewrite R1 in Ea by reflexivity. exact Ea.
Qed.

Lemma relax_env env n ds : nth_error env n = Some ds -> exists ds',
  nth_error (relax env) n = Some ds' /\ map f_ty ds' = map f_ty ds
  /\ Forall2 (fun d d' => f_req d' = true -> f_req d = true) ds ds'.
Proof.
  intros E. unfold relax. rewrite nth_error_map, E. cbn [option_map].
  eexists. split; [reflexivity|]. split.
  - rewrite map_map. reflexivity.
  - clear E. induction ds; cbn [map]; constructor; auto; discriminate.
Qed.

Lemma wfb_relax B env CL v t : wfb B env CL t v = true -> wfb B (relax env) CL t v = true.
Proof. apply wfb_imp; [auto|]. apply relax_env. Qed.

Lemma wfb_wf D env SL CL : forall v t,
  wfb (base_okd D SL) env CL t v = wfd D env SL CL t v.
Proof.
  induction v using value_rect'; intros t; destruct t; try reflexivity; cbn [wfb wfd].
  1-2: f_equal; induction H as [|a l Ha Hl IH]; cbn [forallb]; [reflexivity|];
    rewrite Ha, IH; reflexivity.
  - f_equal. induction H as [|[a b] l [Ha Hb] Hl IH]; cbn [forallb]; [reflexivity|].
    cbn [fst snd] in *. rewrite Ha, Hb, IH. reflexivity.
  - f_equal. destruct (nth_error env n0) as [ds|]; [|reflexivity].
    revert ds. induction H as [|f fs Hf Hfs IH]; intros [|d ds]; try reflexivity.
    rewrite IH. f_equal. destruct f; [apply Hf|reflexivity].
Qed.

(** Base values that are all right, required attributes that are set. *)
Lemma wfb_fits (B b B' : ty -> value -> bool) env CL :
  (forall t v, B t v = true -> b t v = true -> B' t v = true) ->
  forall v t, wfb B (relax env) CL t v = true -> fits env b t v = true ->
  wfb B' env CL t v = true.
Proof.
  intros HB. induction v using value_rect'; intros t E G.
  1-6: destruct t; cbn [wfb fits] in *; auto.
  - destruct t; cbn [wfb fits] in *; auto.
    apply andb_prop in E as [E1 E2]. rewrite E1. cbn [andb]. clear E1.
    induction H as [|a l Ha Hl IH]; cbn [forallb] in *; [reflexivity|].
    apply andb_prop in E2 as [? ?]. apply andb_prop in G as [? ?].
    rewrite Ha, IH by assumption. reflexivity.
  - destruct t; cbn [wfb fits] in *; auto.
    apply andb_prop in E as [E1 E2]. rewrite E1. cbn [andb]. clear E1.
    induction H as [|a l Ha Hl IH]; cbn [forallb] in *; [reflexivity|].
    apply andb_prop in E2 as [? ?]. apply andb_prop in G as [? ?].
    rewrite Ha, IH by assumption. reflexivity.
  - destruct t; cbn [wfb fits] in *; auto.
    apply andb_prop in E as [E1 E2]. rewrite E1. cbn [andb]. clear E1.
    induction H as [|[a c] l [Ha Hc] Hl IH]; cbn [forallb] in *; [reflexivity|].
    cbn [fst snd] in *.
    apply andb_prop in E2 as [E1 ?]. apply andb_prop in G as [G1 ?].
    apply andb_prop in E1 as [? ?]. apply andb_prop in G1 as [? ?].
    rewrite Ha, Hc, IH by assumption. reflexivity.
  - destruct t; cbn [wfb fits] in *; auto.
    apply andb_prop in E as [E1 E2]. rewrite E1. cbn [andb].
    apply PeanoNat.Nat.eqb_eq in E1. subst n0.
    unfold relax in E2. rewrite nth_error_map in E2.
    destruct (nth_error env n) as [ds|]; [|discriminate]. cbn [option_map] in E2.
    revert ds E2 G. induction H as [|f fs Hf Hfs IH]; intros [|d ds] E G;
      cbn [map] in E; try discriminate; try reflexivity.
    apply andb_prop in E as [E1 E2]. apply andb_prop in G as [G1 G2].
    rewrite (IH ds E2 G2), andb_true_r.
    destruct f as [x|]; [apply Hf; [exact E1|exact G1]|exact G1].
Qed.

(** * Sets and dicts *)

Lemma dbl_eqb_sym a b : dbl_eqb a b = dbl_eqb b a.
Proof.
  unfold dbl_eqb. rewrite (Z.eqb_sym a b).
  destruct (dbl_nan a), (dbl_nan b), (b =? a), (dbl_zero a), (dbl_zero b); reflexivity.
Qed.

Lemma bytes_eqb_sym a b : bytes_eqb a b = bytes_eqb b a.
Proof.
  unfold bytes_eqb. destruct (list_eq_dec _ a b), (list_eq_dec _ b a); congruence.
Qed.

Lemma key_eqb_sym a b : key_eqb a b = key_eqb b a.
Proof.
  destruct a, b; cbn [key_eqb]; try reflexivity.
  - destruct b0, b; reflexivity.
  - apply Z.eqb_sym.
  - apply dbl_eqb_sym.
  - destruct (list_eq_dec _ s s0), (list_eq_dec _ s0 s); congruence.
  - apply bytes_eqb_sym.
  - apply bytes_eqb_sym.
Qed.

Lemma nodup_snoc l v : nodup_keys l = true -> existsb (key_eqb v) l = false ->
  nodup_keys (l ++ [v]) = true.
Proof.
  induction l as [|a l IH]; cbn [nodup_keys app existsb]; [reflexivity|].
  intros E1 E2. apply andb_prop in E1 as [Ea Eb]. apply orb_false_elim in E2 as [Fa Fb].
  rewrite (IH Eb Fb), andb_true_r. rewrite existsb_app. cbn [existsb].
  apply negb_true_iff in Ea. rewrite Ea, Fa. reflexivity.
Qed.

Lemma set_add_nodup l v : nodup_keys l = true -> nodup_keys (set_add l v) = true.
Proof.
  intros H. unfold set_add. destruct (existsb (key_eqb v) l) eqn:E; [exact H|].
  apply nodup_snoc; assumption.
Qed.

Lemma dict_set_fst l k v : map fst (dict_set l k v) = set_add (map fst l) k.
Proof.
  unfold set_add. induction l as [|[a b] l IH]; cbn [dict_set map existsb]; [reflexivity|].
  cbn [fst]. destruct (key_eqb k a) eqn:E; cbn [map fst orb]; [reflexivity|].
  rewrite IH. destruct (existsb (key_eqb k) (map fst l)); reflexivity.
Qed.

(** * What the readers return at a given depth, from input of at most [N] bytes *)

Definition postd {X A} (N : nat) (d : Z) (Q : A -> Prop) (m : M X A) : Prop :=
  forall s a s', depth s = d -> (length (inp s) <= N)%nat -> m s = (Ok a, s') -> Q a.

Lemma postd_post X A N d (Q : A -> Prop) (m : M X A) : post Q m -> postd N d Q m.
Proof. intros H s a s' _ _ E. eapply H, E. Qed.

Lemma postd_bind X A B N d (P : A -> Prop) (Q : B -> Prop) (m : M X A) (k : A -> M X B) :
  reads _ m m -> postd N d P m -> (forall a, P a -> postd N d Q (k a)) -> postd N d Q (bind m k).
Proof.
  intros Hr Hm Hk s b s' Hd HN E. unfold bind in E. destruct (Hr s) as (_ & Hr1 & pre & Hr2).
  destruct (m s) as [[a|e|] s1] eqn:F; try discriminate. cbn [snd] in Hr1, Hr2.
  eapply Hk; [eapply Hm; [exact Hd|exact HN|exact F]|rewrite Hr1; exact Hd| |exact E].
  rewrite Hr2, app_length in HN. lia.
Qed.

Lemma postd_then X A B N d (Q : B -> Prop) (m : M X A) (k : A -> M X B) :
  reads _ m m -> (forall a, postd N d Q (k a)) -> postd N d Q (bind m k).
Proof.
  intros Hr Hk. apply postd_bind with (P := fun _ => True); [exact Hr|intros s a s' _ _ _; exact I|auto].
Qed.

Lemma postd_mono X A N d (P Q : A -> Prop) (m : M X A) :
  (forall a, P a -> Q a) -> postd N d P m -> postd N d Q m.
Proof. intros H Hm s a s' Hd HN E. apply H. eapply Hm; [exact Hd|exact HN|exact E]. Qed.

Lemma postd_depth X A N d (Q : A -> Prop) (m : M X A) :
  (d + 1 <= 64 -> postd N (d + 1) Q m) -> postd N d Q (with_depth m).
Proof.
  intros H s a s' Hd HN. unfold with_depth, increment_recursion_depth, bind, try_finally.
  destruct (_ >? _) eqn:G; [discriminate|].
  match goal with |- context [m ?s1] => destruct (m s1) as [r s2] eqn:F end.
  intros E. assert (r = Ok a) by congruence. subst r.
  assert (Hd1 : d + 1 <= 64) by (unfold DEFAULT_RECURSION_DEPTH in G; lia).
  eapply H; [exact Hd1| | |exact F]; cbn [depth inp]; [lia|exact HN].
Qed.

Lemma postd_repeat X A N d (I : Z -> A -> Prop) (f : A -> M X A) F : forall n acc,
  (forall a, reads _ (f a) (f a)) ->
  (forall a j, I j a -> postd N d (I (j + 1)) (f a)) ->
  forall j, I j acc -> postd N d (fun a => exists i, j <= i <= j + Z.max 0 n /\ i <= j + Z.of_nat F /\ I i a)
    (repeatM F n f acc).
Proof.
  induction F as [|F IH]; intros n acc Hr Hf j Hj; cbn [repeatM].
  - destruct (n <=? 0); [apply postd_post, post_ret; exists j; split; [lia|split; [lia|exact Hj]]|].
    intros s a s' _ _ E. discriminate.
  - destruct (n <=? 0) eqn:E;
      [apply postd_post, post_ret; exists j; split; [lia|split; [lia|exact Hj]]|].
    eapply postd_bind; [apply Hr|apply Hf, Hj|]. intros a Ha.
    eapply postd_mono; [|apply IH; [exact Hr|exact Hf|exact Ha]].
    intros b (i & Hi & Hi' & Hb). exists i. split; [lia|split; [lia|exact Hb]].
Qed.

Section Relay.
Context {X : Type}.
Variable P : proto X.
Hypothesis HR : rreads (@reads X) P.
Variable env : schema.
Variable B : ty -> value -> bool.
Variables CL clim : Z.
Variable N : nat.
Hypothesis Hbase : forall t, base_ty t = true -> forall d,
  postd N d (fun v => B t v = true) (read_base P t).
Hypothesis Bbase : forall t v, base_ty t = true -> B t v = true -> sdepth v = O
  /\ wfb B (relax env) CL t v = true.
Hypothesis Hlist : post (fun p => 0 <= snd p /\ snd p <= clim) (readListBegin P).
Hypothesis Hset : post (fun p => 0 <= snd p /\ snd p <= clim) (readSetBegin P).
Hypothesis Hmap : post (fun p => 0 <= snd p /\ snd p <= clim) (readMapBegin P).
Hypothesis Hkeyed : schema_keyed env = true.
Hypothesis Hdef : forall n ds d x, nth_error env n = Some ds -> In d ds ->
  f_def d = Some x -> wfb B (relax env) CL (f_ty d) x = true
    /\ no_missing_default env (f_ty d) x = true /\ sdepth x = O.

(** What a value read with [d] structs open satisfies. *)
Definition sound (d : Z) (t : ty) (v : value) : Prop :=
  wfb B (relax env) CL t v = true /\ no_missing_default env t v = true
  /\ d + Z.of_nat (sdepth v) <= 64.

Notation RC := (reads_closed X).

Lemma list_sdepth d t l : d <= 64 -> Forall (sound d t) l ->
  d + Z.of_nat (fold_right (fun x a => Nat.max (sdepth x) a) O l) <= 64.
Proof.
  intros Hd. induction 1 as [|v l (_ & _ & Hv) Hl IH]; cbn [fold_right]; lia.
Qed.

Lemma Forall_sound (Q : value -> bool) (d : Z) t l : (forall v, sound d t v -> Q v = true) ->
  Forall (sound d t) l -> forallb Q l = true.
Proof.
  intros H. induction 1; cbn [forallb]; [reflexivity|]. rewrite H, IHForall by assumption.
  reflexivity.
Qed.

Lemma read_ty_sound rs F d t : keyed t = true -> d <= 64 ->
  (forall k, k <= clim -> k <= Z.of_nat F -> k <= CL) ->
  (forall n, reads _ (rs n) (rs n)) ->
  (forall n, postd N d (sound d (TStruct n)) (rs n)) ->
  postd N d (sound d t) (read_ty P rs F t).
Proof.
  intros Hk Hd HCL Hrr Hrs.
  assert (HT : forall u, reads _ (read_ty P rs F u) (read_ty P rs F u)).
  { intros u. apply (read_ty_rel reads RC P HR); auto. }
  induction t as [| | | | | | | | |t IH|t IH|k IHk t IH|n];
    try (cbn [read_ty];
         eapply postd_mono; [|apply Hbase; reflexivity];
         intros a Ha; cbn beta in Ha;
         match type of Ha with B ?u _ = _ =>
           destruct (Bbase u a eq_refl Ha) as [H1 H2] end;
         split; [exact H2|split; [destruct a; reflexivity|rewrite H1; lia]]).
  - cbn [read_ty keyed] in *.
    eapply postd_bind; [apply HR|apply postd_post, Hlist|]. intros [et sz] [H0 HC].
    cbn [snd] in *.
    eapply postd_bind with (P := fun l => exists i, 0 <= i <= 0 + Z.max 0 sz /\ i <= 0 + Z.of_nat F /\
      Z.of_nat (length l) <= i /\ Forall (sound d t) l).
    + apply (repeatM_rel reads RC); [lia|]. intros acc. apply (rc_bind _ RC); [apply HT|].
      intros. apply (rc_ret _ RC).
    + apply postd_repeat with (I := fun i l => Z.of_nat (length l) <= i
        /\ Forall (sound d t) l).
      * intros acc. apply (rc_bind _ RC); [apply HT|]. intros. apply (rc_ret _ RC).
      * intros l j [Hl Hf]. eapply postd_bind; [apply HT|apply IH, Hk|]. intros v Hv.
        apply postd_post, post_ret. rewrite app_length. cbn [length]. split; [lia|].
        apply Forall_app. split; [exact Hf|constructor; [exact Hv|constructor]].
      * split; [cbn; lia|constructor].
    + intros l (i & Hi & HF & Hl & Hf). apply postd_then; [apply HR|]. intros _.
      assert (HL : Z.of_nat (length l) <= CL) by (apply HCL; lia).
      apply postd_post, post_ret. unfold sound. cbn [wfb no_missing_default sdepth].
      split; [|split].
      * unfold len_le. rewrite (Forall_sound _ d t l) by (try apply Hf; intros v Hv; apply Hv). lia.
      * apply (Forall_sound _ d t l); [intros v Hv; apply Hv|exact Hf].
      * eapply list_sdepth; eassumption.
  - cbn [read_ty keyed] in *. apply andb_prop in Hk as [Hh Hk]. rewrite Hh.
    eapply postd_bind; [apply HR|apply postd_post, Hset|]. intros [et sz] [H0 HC].
    cbn [snd] in *.
    eapply postd_bind with (P := fun l => exists i, 0 <= i <= 0 + Z.max 0 sz /\ i <= 0 + Z.of_nat F /\
      Z.of_nat (length l) <= i /\ nodup_keys l = true /\ Forall (sound d t) l).
    + apply (repeatM_rel reads RC); [lia|]. intros acc. apply (rc_bind _ RC); [apply HT|].
      intros. apply (rc_ret _ RC).
    + apply postd_repeat with (I := fun i l => Z.of_nat (length l) <= i
        /\ nodup_keys l = true /\ Forall (sound d t) l).
      * intros acc. apply (rc_bind _ RC); [apply HT|]. intros. apply (rc_ret _ RC).
      * intros l j (Hl & Hn & Hf). eapply postd_bind; [apply HT|apply IH, Hk|]. intros v Hv.
        apply postd_post, post_ret. pose proof (set_add_len l v).
        split; [lia|split; [apply set_add_nodup, Hn|apply set_add_Forall; assumption]].
      * split; [cbn; lia|split; [reflexivity|constructor]].
    + intros l (i & Hi & HF & Hl & Hn & Hf). apply postd_then; [apply HR|]. intros _.
      assert (HL : Z.of_nat (length l) <= CL) by (apply HCL; lia).
      apply postd_post, post_ret. unfold sound. cbn [wfb no_missing_default sdepth].
      split; [|split].
      * unfold len_le. rewrite Hh, Hn.
        rewrite (Forall_sound _ d t l) by (try apply Hf; intros v Hv; apply Hv). lia.
      * reflexivity.
      * eapply list_sdepth; eassumption.
  - cbn [read_ty keyed] in *. apply andb_prop in Hk as [Hk Hkt].
    apply andb_prop in Hk as [Hh Hk]. rewrite Hh.
    eapply postd_bind; [apply HR|apply postd_post, Hmap|]. intros [[kt et] sz] [H0 HC].
    cbn [snd] in *.
    eapply postd_bind with (P := fun l => exists i, 0 <= i <= 0 + Z.max 0 sz /\ i <= 0 + Z.of_nat F /\
      Z.of_nat (length l) <= i /\ nodup_keys (map fst l) = true
      /\ Forall (fun p => sound d k (fst p) /\ sound d t (snd p)) l).
    + apply (repeatM_rel reads RC); [lia|]. intros acc. apply (rc_bind _ RC); [apply HT|].
      intros. apply (rc_bind _ RC); [apply HT|]. intros. apply (rc_ret _ RC).
    + apply postd_repeat with (I := fun i l => Z.of_nat (length l) <= i
        /\ nodup_keys (map fst l) = true
        /\ Forall (fun p => sound d k (fst p) /\ sound d t (snd p)) l).
      * intros acc. apply (rc_bind _ RC); [apply HT|].
        intros. apply (rc_bind _ RC); [apply HT|]. intros. apply (rc_ret _ RC).
      * intros l j (Hl & Hn & Hf). eapply postd_bind; [apply HT|apply IHk, Hk|]. intros a Ha.
        eapply postd_bind; [apply HT|apply IH, Hkt|]. intros v Hv.
        apply postd_post, post_ret. pose proof (dict_set_len l a v).
        split; [lia|split; [|apply dict_set_Forall; assumption]].
        rewrite dict_set_fst. apply set_add_nodup, Hn.
      * split; [cbn; lia|split; [reflexivity|constructor]].
    + intros l (i & Hi & HF & Hl & Hn & Hf). apply postd_then; [apply HR|]. intros _.
      assert (HL : Z.of_nat (length l) <= CL) by (apply HCL; lia).
      apply postd_post, post_ret. unfold sound. cbn [wfb no_missing_default sdepth].
      split; [|split].
      * rewrite Hh, Hn. unfold len_le.
        replace (Z.of_nat (length l) <=? CL) with true by lia. cbn [andb].
        clear - Hf. induction Hf as [|[a v] l [Ha Hv] Hl IH]; cbn [forallb]; [reflexivity|].
        cbn [fst snd] in *. rewrite (proj1 Ha), (proj1 Hv), IH. reflexivity.
      * clear - Hf. induction Hf as [|[a v] l [Ha Hv] Hl IH]; cbn [forallb]; [reflexivity|].
        cbn [fst snd] in *. rewrite (proj1 (proj2 Hv)), IH. reflexivity.
      * clear - Hf Hd. induction Hf as [|[a v] l [Ha Hv] Hl IH]; cbn [fold_right]; [lia|].
        cbn [fst snd] in *. destruct Ha as (_ & _ & Ha), Hv as (_ & _ & Hv). lia.
  - cbn [read_ty]. apply Hrs.
Qed.

(** An attribute: a default, unset, or a value read. *)
Definition attr_ok (d : Z) (x : fielddef) (f : option value) : Prop :=
  f = f_def x \/ exists v, f = Some v /\ sound d (f_ty x) v.

Lemma read_fields_sound F K rv d ds : (forall t, reads _ (rv t) (rv t)) ->
  (forall x, In x ds -> postd N d (sound d (f_ty x)) (rv (f_ty x))) -> forall acc,
  Forall2 (attr_ok d) ds acc ->
  postd N d (Forall2 (attr_ok d) ds) (read_fields P F K rv ds acc).
Proof.
  intros Hrr Hrv. induction F as [|F IH]; intros acc Hacc; cbn [read_fields].
  { intros s a s' _ _ E. discriminate. }
  apply postd_then; [apply HR|]. intros [ft fid].
  assert (S1 : postd N d (Forall2 (attr_ok d) ds)
    (skip P K SKIP_DEPTH ft ;;; readFieldEnd P ;;; read_fields P F K rv ds acc)).
  { apply postd_then; [apply (skip_rel reads RC P HR); lia|]. intros _.
    apply postd_then; [apply HR|]. intros _. apply IH, Hacc. }
  destruct (ft =? T_STOP); [apply postd_post, post_ret, Hacc|].
  destruct (find_field ds fid) as [[i x]|] eqn:E; [|exact S1].
  destruct (ft =? code (f_ty x)); [|exact S1].
  eapply postd_bind; [apply Hrr|apply Hrv; eapply nth_error_In, find_field_nth, E|].
  intros v Hv. apply postd_then; [apply HR|]. intros _. apply IH.
  eapply set_nth_Forall2; [exact Hacc|eapply find_field_nth, E|].
  right. exists v. split; [reflexivity|exact Hv].
Qed.

Lemma struct_sound d n ds fs : nth_error env n = Some ds -> d + 1 <= 64 ->
  Forall2 (attr_ok (d + 1)) ds fs -> sound d (TStruct n) (VStruct n fs).
Proof.
  intros E Hd H. unfold sound. cbn [wfb no_missing_default sdepth].
  rewrite PeanoNat.Nat.eqb_refl. unfold relax at 1. rewrite nth_error_map, E.
  cbn [option_map andb].
  assert (HD : forall x, In x ds -> forall y, f_def x = Some y ->
    wfb B (relax env) CL (f_ty x) y = true
    /\ no_missing_default env (f_ty x) y = true /\ sdepth y = O).
  { intros x Hx y Hy. eapply Hdef; eassumption. }
  clear E. induction H as [|x f ds fs Hx Hxs IH].
  { cbn [map fold_right]. split; [reflexivity|split; [reflexivity|lia]]. }
  destruct IH as (I1 & I2 & I3); [intros; eapply HD; [right|]; eassumption|].
  cbn [map fold_right f_ty f_req negb].
  assert (G : match f with
              | Some v => wfb B (relax env) CL (f_ty x) v = true
                  /\ no_missing_default env (f_ty x) v = true
                  /\ d + 1 + Z.of_nat (sdepth v) <= 64
              | None => f_def x = None
              end).
  { destruct Hx as [->|(v & -> & Hv)].
    - destruct (f_def x) as [y|] eqn:Ey; [|reflexivity].
      destruct (HD x (or_introl eq_refl) y Ey) as (? & ? & Hs). rewrite Hs. repeat split; auto; lia.
    - exact Hv. }
  split; [|split].
  - rewrite I1, andb_true_r. destruct f; [apply G|reflexivity].
  - rewrite I2, andb_true_r. destruct f; [apply G|rewrite G; reflexivity].
  - destruct f; [destruct G as (_ & _ & G)|]; lia.
Qed.

Theorem read_struct_sound k : forall d F n, d <= 64 ->
  (forall k, k <= clim -> k <= Z.of_nat F -> k <= CL) ->
  postd N d (sound d (TStruct n)) (read_struct P env k F n).
Proof.
  induction k as [|k IH]; intros d F n Hd HCL; cbn [read_struct].
  { intros s a s' _ _ E. discriminate. }
  destruct (nth_error env n) as [ds|] eqn:E;
    [|intros s a s' _ _ G; discriminate].
  apply postd_depth. intros Hd1.
  apply postd_then; [apply HR|]. intros _.
  assert (Hrs : forall m, reads _ (read_struct P env k F m) (read_struct P env k F m)).
  { intros m. apply (read_struct_rel reads RC P HR); lia. }
  assert (Hrt : forall t, reads _ (read_ty P (read_struct P env k F) F t)
                                  (read_ty P (read_struct P env k F) F t)).
  { intros t. apply (read_ty_rel reads RC P HR); auto. }
  eapply postd_bind.
  - apply (read_fields_rel reads RC P HR); [lia|lia|exact Hrt].
  - apply read_fields_sound; [exact Hrt| |].
    + intros x Hx. apply read_ty_sound; [|exact Hd1|exact HCL|exact Hrs|
        intros m; apply IH; [exact Hd1|exact HCL]].
      unfold schema_keyed in Hkeyed. rewrite forallb_forall in Hkeyed.
      specialize (Hkeyed ds (nth_error_In _ _ E)). rewrite forallb_forall in Hkeyed.
      apply Hkeyed, Hx.
    + unfold fresh. clear E. induction ds as [|x ds IHd]; cbn [map]; constructor; auto.
      left. reflexivity.
  - intros acc Hacc. apply postd_then; [apply HR|]. intros _. apply postd_post, post_ret.
    eapply struct_sound; eassumption.
Qed.

Lemma deserialize_sound x n buf v rest : (length buf <= N)%nat ->
  (forall k, k <= clim -> k <= Z.of_nat (S (length buf)) -> k <= CL) ->
  deserialize P x env n buf = Ok (v, rest) ->
  wfb B (relax env) CL (TStruct n) v = true
  /\ no_missing_default env (TStruct n) v = true /\ (sdepth v <= 64)%nat.
Proof.
  intros HN HCL. unfold deserialize.
  destruct (read_struct P env DFUEL (S (length buf)) n (mkst x buf [] 0))
    as [[a|e|] s'] eqn:E; try discriminate.
  intros H. assert (a = v) by congruence. subst a.
  destruct (read_struct_sound DFUEL 0 (S (length buf)) n ltac:(lia) HCL
    (mkst x buf [] 0) v s' eq_refl HN E) as (H1 & H2 & H3).
  split; [exact H1|split; [exact H2|lia]].
Qed.
End Relay.
