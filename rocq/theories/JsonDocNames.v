(** Member names in the documents of the JSON protocols are unique. *)
From Coq Require Import ZArith List Bool Lia.
From Coq Require Import Init.Byte.
From Coq Require Import ZifyBool ZifyNat ZifyN.
From Verif Require Import Base Bytes BytesFacts Utf8 Utf8Facts Proto Spec Laws RoundTrip
  StructFacts BinaryLaws JsonText JsonTextFacts SpecJson SpecJsonDoc SimpleJson JsonDocFacts
  SimpleJsonFacts.
Import ListNotations.
Open Scope Z_scope.

Lemma bytes_eqb_refl l : bytes_eqb l l = true.
Proof. unfold bytes_eqb. destruct (list_eq_dec _ _ _); congruence. Qed.

Section N.
Variable dtext : Z -> list Z.
Variable D : Z -> bool.
Hypothesis Hinj : forall d d', 0 <= d < 2 ^ 64 -> 0 <= d' < 2 ^ 64 ->
  D d = true -> D d' = true -> dtext d = dtext d' -> d = d'.
Hypothesis Hnan : forall d, D d = true -> dbl_nan d = false.
Variable env : schema.
Variables SL CL : Z.

Lemma key_inj t a b : hashable t = true -> wfd D env SL CL t a = true ->
  wfd D env SL CL t b = true -> key_text dtext a = key_text dtext b -> key_eqb b a = true.
Proof.
  intros Hh Ha Hb E. destruct t; try discriminate Hh;
    destruct a; try discriminate Ha; destruct b; try discriminate Hb;
    cbn [key_text key_eqb wfd base_okd] in *.
  1-5: apply (f_equal py_int) in E; rewrite !py_int_text in E; injection E as E;
    try (destruct b0; destruct b; try discriminate E; reflexivity); lia.
  - rename bits into d. rename bits0 into d0.
    destruct (D d) eqn:Dd; [|discriminate]. destruct (D d0) eqn:Dd0; [|discriminate].
    apply between_spec in Ha, Hb. rewrite (Hinj d d0) by (assumption || lia).
    unfold dbl_eqb. rewrite (Hnan _ Dd0), Z.eqb_refl. reflexivity.
  - subst. destruct (list_eq_dec Z.eq_dec _ _); congruence.
  - apply (f_equal b64decode) in E. rewrite !b64decode_encode in E. injection E as ->.
    apply bytes_eqb_refl.
  - apply (f_equal py_uuid) in E. rewrite !py_uuid_text in E by lia. injection E as ->.
    apply bytes_eqb_refl.
Qed.

Lemma keys_nodup t l : hashable t = true -> Forall (fun k => wfd D env SL CL t k = true) l ->
  nodup_keys l = true -> NoDup (map (key_text dtext) l).
Proof.
  intros Hh. induction 1 as [|k l Hk Hl IH]; intros Hn; [constructor|].
  cbn [nodup_keys] in Hn. apply andb_prop in Hn as [H1 H2]. cbn [map].
  constructor; [|auto]. intros Hin. apply in_map_iff in Hin as (k' & E & Hin).
  rewrite Forall_forall in Hl.
  assert (C : existsb (fun y => key_eqb y k) l = true).
  { apply existsb_exists. exists k'. split; [exact Hin|].
    apply (key_inj t); auto. }
  rewrite C in H1. discriminate.
Qed.

Lemma fold_map_unique (f : value -> json) l : Forall (fun x => unique_names (f x)) l ->
  fold_right (fun x P => unique_names x /\ P) True (map f l).
Proof. induction 1; cbn [map fold_right]; auto. Qed.

(** The members of a map. *)
Lemma map_unique kt vt (f : value -> json) l : hashable kt = true ->
  forallb (fun kv => match kv with
                     | (k, x) => wfd D env SL CL kt k && wfd D env SL CL vt x end) l = true ->
  nodup_keys (map fst l) = true ->
  Forall (fun kv => wfd D env SL CL vt (snd kv) = true -> unique_names (f (snd kv))) l ->
  unique_names (JObj (map (fun kv => match kv with (k, x) => (key_text dtext k, f x) end) l)).
Proof.
  intros Hh Hw Hn Hf. cbn [unique_names].
  rewrite map_map, (map_ext _ (fun kv => key_text dtext (fst kv))) by (intros []; reflexivity).
  rewrite <- map_map. split.
  - apply (keys_nodup kt); auto. rewrite forallb_forall in Hw. rewrite Forall_forall.
    intros k Hk. apply in_map_iff in Hk as ([k' x] & <- & Hin). specialize (Hw _ Hin).
    apply andb_prop in Hw as [Hw _]. exact Hw.
  - clear Hn. induction Hf as [|[k x] l Hx _ IH]; [exact I|].
    cbn [forallb map fold_right fst snd] in *. apply andb_prop in Hw as [Hw1 Hw2].
    apply andb_prop in Hw1 as [_ Hw1]. auto.
Qed.
End N.

Lemma finite_inj d d' : 0 <= d < 2 ^ 64 -> 0 <= d' < 2 ^ 64 ->
  finite d = true -> finite d' = true -> dbl_text d = dbl_text d' -> d = d'.
Proof.
  intros H H' F F' E. apply (f_equal py_float) in E.
  rewrite !py_float_text in E by assumption. congruence.
Qed.

Lemma finite_not_nan d : finite d = true -> dbl_nan d = false.
Proof.
  unfold finite, dbl_nan, DBL_INF, DBL_SIGN.
  change (2 ^ 63) with 9223372036854775808. lia.
Qed.

Section TJN.
Variable env : schema.
Variables SL CL : Z.
Hypothesis Hok : schema_ok env.

Lemma tj_names fs : forall ds x, In x (map fst (tj_fields env fs ds)) ->
  exists d, In d ds /\ x = int_text (f_id d).
Proof.
  induction fs as [|f fs IH]; intros [|d ds] x H; cbn [tj_fields map] in H;
    try (destruct H; fail).
  rewrite map_app, in_app_iff in H. destruct H as [H|H].
  - destruct f; cbn in H; [|destruct H]. destruct H as [<-|[]]. exists d.
    split; [left; reflexivity|reflexivity].
  - destruct (IH ds x H) as (d' & Hin & E). exists d'. split; [right; exact Hin|exact E].
Qed.

Lemma tj_unique v : forall t, wfd finite env SL CL t v = true -> unique_names (tj_doc env t v).
Proof.
  induction v using value_rect'; intros t Hwf.
  1-6: destruct t; try discriminate Hwf; exact I.
  - destruct t; try discriminate Hwf. cbn [wfd] in Hwf. apply andb_prop in Hwf as [_ Hwf].
    cbn [tj_doc unique_names fold_right]. do 2 (split; [exact I|]).
    apply fold_map_unique. rewrite forallb_forall in Hwf. rewrite Forall_forall in *. auto.
  - destruct t; try discriminate Hwf. cbn [wfd] in Hwf. apply andb_prop in Hwf as [_ Hwf].
    cbn [tj_doc unique_names fold_right]. do 2 (split; [exact I|]).
    apply fold_map_unique. rewrite forallb_forall in Hwf. rewrite Forall_forall in *. auto.
  - destruct t; try discriminate Hwf. cbn [wfd] in Hwf. apply andb_prop in Hwf as [Hk Hwf].
    apply andb_prop in Hk as [Hk Hnd]. apply andb_prop in Hk as [_ Hk].
    cbn [tj_doc]. set (o := JObj _). cbn [unique_names fold_right].
    do 3 (split; [exact I|]). split; [|exact I]. subst o.
    apply (map_unique dbl_text finite finite_inj finite_not_nan env SL CL t1 t2); auto.
    eapply Forall_impl; [|exact H]. cbn beta. intros kv [_ Hx]. auto.
  - destruct t; try discriminate Hwf. rewrite wf_struct in Hwf.
    apply andb_prop in Hwf as [Hn Hwf]. apply Nat.eqb_eq in Hn. subst n0.
    destruct (nth_error env n) as [ds|] eqn:E; [|discriminate].
    rewrite (tj_struct env n n fs ds E). cbn [unique_names].
    pose proof (proj1 (Hok n ds E)) as Hnd. clear E. split.
    + clear H. revert ds Hwf Hnd. induction fs as [|f fs IH]; intros [|d ds] Hwf Hnd;
        cbn [tj_fields]; try constructor. cbn [wf_fields map] in *.
      apply andb_prop in Hwf as [_ Hw]. inversion Hnd as [|? ? Hni Hnd']; subst.
      destruct f as [x|]; cbn [app map fst]; [|auto]. constructor; [|auto].
      intros Hin. apply tj_names in Hin as (d' & Hin & E).
      apply (f_equal py_int) in E. rewrite !py_int_text in E. injection E as E.
      apply Hni. rewrite E. apply in_map, Hin.
    + revert ds Hwf Hnd. induction H as [|f fs Hf _ IH]; intros [|d ds] Hwf Hnd;
        cbn [tj_fields]; try exact I. cbn [wf_fields map] in *.
      apply andb_prop in Hwf as [Hw1 Hw]. inversion Hnd as [|? ? Hni Hnd']; subst.
      destruct f as [x|]; cbn [app fold_right snd]; [|auto]. split; [|auto].
      cbn [unique_names map fst fold_right snd].
      split; [constructor; [intros []|constructor]|]. auto.
Qed.
End TJN.

Section SSN.
Variable dtext : Z -> list Z.
Variable D : Z -> bool.
Hypothesis Hinj : forall d d', 0 <= d < 2 ^ 64 -> 0 <= d' < 2 ^ 64 ->
  D d = true -> D d' = true -> dtext d = dtext d' -> d = d'.
Hypothesis Hnan : forall d, D d = true -> dbl_nan d = false.
Variable names : nat -> nat -> list Z.
Hypothesis Hnames : forall n i j, names n i = names n j -> i = j.
Variable env : schema.
Variables SL CL : Z.
Notation ssd := (ss_doc dtext names env).

Lemma ss_names n fs : forall i ds x, In x (map fst (ss_members dtext names env n i fs ds)) ->
  exists j, (i <= j)%nat /\ x = names n j.
Proof.
  induction fs as [|f fs IH]; intros i [|d ds] x H; cbn [ss_members map] in H;
    try (destruct H; fail).
  rewrite map_app, in_app_iff in H. destruct H as [H|H].
  - destruct f; cbn in H; [|destruct H]. destruct H as [<-|[]]. exists i. auto.
  - destruct (IH (S i) ds x H) as (j & Hj & E). exists j. split; [lia|exact E].
Qed.

Lemma ss_unique v : forall t, wfd D env SL CL t v = true -> unique_names (ssd t v).
Proof.
  induction v using value_rect'; intros t Hwf.
  1-6: destruct t; try discriminate Hwf; exact I.
  - destruct t; try discriminate Hwf. cbn [wfd] in Hwf. apply andb_prop in Hwf as [_ Hwf].
    cbn [ss_doc unique_names fold_right].
    apply fold_map_unique. rewrite forallb_forall in Hwf. rewrite Forall_forall in *. auto.
  - destruct t; try discriminate Hwf. cbn [wfd] in Hwf. apply andb_prop in Hwf as [_ Hwf].
    cbn [ss_doc unique_names fold_right].
    apply fold_map_unique. rewrite forallb_forall in Hwf. rewrite Forall_forall in *. auto.
  - destruct t; try discriminate Hwf. cbn [wfd] in Hwf. apply andb_prop in Hwf as [Hk Hwf].
    apply andb_prop in Hk as [Hk Hnd]. apply andb_prop in Hk as [_ Hk].
    cbn [ss_doc].
    apply (map_unique dtext D Hinj Hnan env SL CL t1 t2); auto.
    eapply Forall_impl; [|exact H]. cbn beta. intros kv [_ Hx]. auto.
  - destruct t; try discriminate Hwf. rewrite wf_struct in Hwf.
    apply andb_prop in Hwf as [Hn Hwf]. apply Nat.eqb_eq in Hn. subst n0.
    destruct (nth_error env n) as [ds|] eqn:E; [|discriminate].
    rewrite (ssd_struct dtext names env n n fs ds E). cbn [unique_names]. clear E.
    generalize 0%nat as i. split.
    + clear H. revert ds i Hwf. induction fs as [|f fs IH]; intros [|d ds] i Hwf;
        cbn [ss_members]; try constructor. cbn [wf_fields map] in *.
      apply andb_prop in Hwf as [_ Hw].
      destruct f as [x|]; cbn [app map fst]; [|auto]. constructor; [|auto].
      intros Hin. apply ss_names in Hin as (j & Hj & E). apply Hnames in E. lia.
    + revert ds i Hwf. induction H as [|f fs Hf _ IH]; intros [|d ds] i Hwf;
        cbn [ss_members]; try exact I. cbn [wf_fields map] in *.
      apply andb_prop in Hwf as [Hw1 Hw].
      destruct f as [x|]; cbn [app fold_right snd]; auto.
Qed.
End SSN.
