(** The table-driven code on each protocol: chains of any length, negative ids,
    and values the generated writer refuses. *)
From Coq Require Import ZArith List Bool Lia ZifyBool ZifyNat Sorted.
From Coq Require Import Init.Byte.
From Verif Require Import Base Bytes Utf8 Proto Spec Laws RoundTrip StructFacts
  Binary BinaryLaws SpecBinary Compact CompactLaws SpecCompact WireFacts InstFacts SafeInst
  JsonText Json JsonLaws SpecJson JsonFacts
  Dynamic SpecDynamic Closure DynamicFacts DynamicInst DynamicRead.
Import ListNotations.
Open Scope Z_scope.

Lemma wf_complete D env SL CL v : forall t, wfd D env SL CL t v = true ->
  complete env v = true.
Proof.
  induction v as [| | | | | |l IH|l IH|l IH|m fs IH] using value_rect'; intros t H;
    try reflexivity; cbn [complete].
  - destruct t; try discriminate H; cbn [wfd] in H.
    apply andb_prop in H. destruct H as [_ H].
    rewrite forallb_forall in *. rewrite Forall_forall in IH. eauto.
  - destruct t; try discriminate H; cbn [wfd] in H.
    apply andb_prop in H. destruct H as [_ H].
    rewrite forallb_forall in *. rewrite Forall_forall in IH. eauto.
  - destruct t; try discriminate H; cbn [wfd] in H.
    apply andb_prop in H. destruct H as [_ H].
    rewrite forallb_forall in *. rewrite Forall_forall in IH.
    intros [a b] Hin. specialize (H _ Hin). cbn in H. apply andb_prop in H.
    destruct H as [H1 H2]. destruct (IH _ Hin) as [I1 I2]. cbn [fst snd] in I1, I2.
    rewrite (I1 _ H1), (I2 _ H2). reflexivity.
  - destruct t as [| | | | | | | | | | | |n]; try discriminate H; cbn [wfd] in H.
    apply andb_prop in H. destruct H as [Hn H]. apply Nat.eqb_eq in Hn. subst m.
    destruct (nth_error env n) as [ds|]; [|discriminate H].
    revert ds H. clear n. induction fs as [|f fs IHf]; intros [|d ds] H; try discriminate H.
    + reflexivity.
    + apply andb_prop in H. destruct H as [H1 H2].
      inversion IH as [|? ? If Ifs]; subst.
      specialize (IHf Ifs ds H2). apply andb_prop in IHf. destruct IHf as [IHf K3].
      apply andb_prop in IHf. destruct IHf as [K1 K2].
      cbn [length Nat.eqb forallb]. rewrite K1, K3. unfold validate in *.
      cbn [combine forallb]. rewrite K2.
      destruct f as [x|].
      * rewrite (If _ H1), !andb_true_r. cbn. rewrite ?andb_false_r, ?orb_true_r. reflexivity.
      * cbn. rewrite H1. reflexivity.
Qed.

Definition q_depth (e : exn) : Prop := e = EProtocol TP_DEPTH_LIMIT.

Lemma binary_dwrite cf SL CL env n v : table_schema env ->
  SL <= 2147483647 -> CL <= 2147483647 ->
  wf env SL CL (TStruct n) v = true -> (sdepth v <= 64)%nat ->
  dserialize (binary cf) tt env n v = Ok (sb_value env (TStruct n) v).
Proof.
  intros H H1 H2 H3 H4.
  apply (serialize_agree q_depth eq_refl _ (binary_ag_w _ eq_refl cf) env H).
  - eapply wf_complete. exact H3.
  - apply (binary_serialize cf SL CL); try assumption. apply id16_table, H.
  - discriminate.
  - discriminate.
Qed.

Lemma compact_dwrite cf SL CL env n v : table_schema env ->
  SL <= 2147483647 -> CL <= 2147483647 ->
  wf env SL CL (TStruct n) v = true -> (sdepth v <= 64)%nat ->
  dserialize (compact cf) c_init env n v = Ok (sc_value env (TStruct n) v).
Proof.
  intros H H1 H2 H3 H4.
  apply (serialize_agree q_depth eq_refl _ (compact_ag_w _ eq_refl cf) env H).
  - eapply wf_complete. exact H3.
  - apply (compact_serialize cf SL CL); try assumption. apply id16_table, H.
  - discriminate.
  - discriminate.
Qed.

Lemma json_dwrite limit SL CL env n v : table_schema env ->
  CL <= 9223372036854775807 ->
  wfd finite env SL CL (TStruct n) v = true -> (sdepth v <= 64)%nat ->
  dserialize (json limit) j_init env n v = Ok (sj_value env false (TStruct n) v).
Proof.
  intros H H1 H3 H4.
  apply (serialize_agree q_depth eq_refl _ (json_ag_w _ eq_refl limit) env H).
  - eapply wf_complete. exact H3.
  - apply (json_serialize limit SL CL); try assumption. apply id16_table, H.
  - discriminate.
  - discriminate.
Qed.

(** Chains. *)
Lemma binary_chain cf SL CL N tail : b_limits cf SL CL ->
  dserialize (binary cf) tt rec_env 0 (chain N)
  = Ok (sb_value rec_env (TStruct 0) (chain N))
  /\ ddeserialize (binary cf) tt rec_env 0 (sb_value rec_env (TStruct 0) (chain N) ++ tail)
     = Ok (chain N, tail).
Proof.
  intros Hl. set (L := binary_laws cf SL CL Hl).
  assert (Ee : enc L rec_env tt (TStruct 0) (chain N) = sb_value rec_env (TStruct 0) (chain N))
    by apply (enc_binary_spec cf SL CL Hl).
  split.
  - unfold dserialize.
    destruct (chain_write L eq_refl N tt 0 I tt [] [] I) as (x' & E & _).
    rewrite E, Ee. reflexivity.
  - unfold ddeserialize.
    set (buf := sb_value rec_env (TStruct 0) (chain N) ++ tail).
    assert (Hlen : forall k, (k <= length (sb_value rec_env (TStruct 0) (chain k)))%nat).
    { clear. induction k; [cbn; lia|].
      change (chain (S k)) with (VStruct 0 [Some (chain k)]).
      cbn [sb_value rec_env nth_error f_ty f_id].
      rewrite ?app_length. fold rec_env. cbn [length].
      change (length (int8 (sb_type (TStruct 0)))) with 1%nat. lia. }
    specialize (Hlen N).
    assert (Hb : (N <= length buf)%nat) by (unfold buf; rewrite app_length; lia).
    destruct (length buf) as [|lb] eqn:El.
    { exfalso. unfold buf in El. destruct N; discriminate El. }
    destruct (chain_read L eq_refl N tt 0 (DFUEL + S lb) lb I ltac:(unfold DFUEL; lia)
      tail I tt buf [] ltac:(unfold buf; rewrite <- Ee; reflexivity)) as (x' & i' & E & Hr).
    rewrite E. cbn in Hr. subst i'. reflexivity.
Qed.

Lemma compact_chain cf SL CL N tail : c_limits cf SL CL ->
  dserialize (compact cf) c_init rec_env 0 (chain N)
  = Ok (sc_value rec_env (TStruct 0) (chain N))
  /\ ddeserialize (compact cf) c_init rec_env 0
       (sc_value rec_env (TStruct 0) (chain N) ++ tail)
     = Ok (chain N, tail).
Proof.
  intros Hl. set (L := compact_laws cf SL CL Hl).
  assert (Ee : enc L rec_env (c_top c_init) (TStruct 0) (chain N)
               = sc_value rec_env (TStruct 0) (chain N))
    by (apply (enc_compact_spec cf SL CL Hl); exact I).
  split.
  - unfold dserialize.
    destruct (chain_write L eq_refl N (c_top c_init) 0 I c_init [] []) as (x' & E & _).
    { apply ready_wrep. repeat split. }
    rewrite E, Ee. reflexivity.
  - unfold ddeserialize.
    set (buf := sc_value rec_env (TStruct 0) (chain N) ++ tail).
    assert (Hlen : forall k, (k <= length (sc_value rec_env (TStruct 0) (chain k)))%nat).
    { clear. induction k; [cbn; lia|].
      change (chain (S k)) with (VStruct 0 [Some (chain k)]).
      cbn [sc_value rec_env nth_error f_ty f_id].
      rewrite ?app_length. fold rec_env.
      change (length (sc_field 0 1 (sc_type (TStruct 0)))) with 1%nat. lia. }
    specialize (Hlen N).
    assert (Hb : (N <= length buf)%nat) by (unfold buf; rewrite app_length; lia).
    destruct (length buf) as [|lb] eqn:El.
    { exfalso. unfold buf in El. destruct N; discriminate El. }
    destruct (chain_read L eq_refl N (c_top c_init) 0 (DFUEL + S lb) lb I
      ltac:(unfold DFUEL; lia) tail I c_init buf []) as (x' & i' & E & Hr).
    { unfold buf. rewrite <- Ee. apply ready_rrep. repeat split. }
    rewrite E. apply (rrep_ready c_init) in Hr. destruct Hr as [-> _]. reflexivity.
Qed.

Lemma rec_closed : schema_closed rec_env = true.
Proof. reflexivity. Qed.

(** Negative ids. *)
Definition neg_env (id : Z) (t : ty) : schema := [[mkfield id t false None]].

Lemma neg_env_ok id t : -32768 <= id <= 32767 -> schema_ok (neg_env id t).
Proof.
  intros H [|n] ds E; [|destruct n; discriminate]. injection E as <-.
  split; [repeat constructor; intros []|]. intros d [<-|[]]. cbn. unfold id16, between. lia.
Qed.

Definition last_id (ds : list fielddef) : Z :=
  match nth_error ds (length ds - 1) with Some d => f_id d | None => 0 end.

Lemma last_id_at ds i d : nth_error ds i = Some d ->
  exists dl, nth_error ds (length ds - 1) = Some dl /\ f_id dl = last_id ds.
Proof.
  intros H. unfold last_id. destruct (nth_error ds (length ds - 1)) as [dl|] eqn:E.
  - exists dl. split; reflexivity.
  - exfalso. apply nth_error_None in E.
    assert (i < length ds)%nat by (apply nth_error_Some; congruence). lia.
Qed.

Lemma last_id_bounds env n ds i d : table_schema env -> nth_error env n = Some ds ->
  nth_error ds i = Some d -> 0 <= f_id d <= last_id ds /\ last_id ds <= 32767.
Proof.
  intros He E Hi. destruct (last_id_at _ _ _ Hi) as (dl & El & <-).
  destruct (He _ _ E) as [Hs Hb].
  pose proof (Hb _ (nth_error_In _ _ Hi)). pose proof (Hb _ (nth_error_In _ _ El)).
  split; [|lia]. split; [lia|].
  assert (Hil : (i <= length ds - 1)%nat).
  { assert (i < length ds)%nat by (apply nth_error_Some; congruence). lia. }
  clear - Hs Hi El Hil. revert i Hil Hi El. generalize (length ds - 1)%nat as j.
  induction ds as [|x ds IH]; intros j i Hij Hi Hj; [destruct i; discriminate|].
  cbn [map] in Hs. inversion Hs as [|? ? Hs' Hf]; subst.
  destruct j as [|j].
  - replace i with O in Hi by lia. rewrite Hi in Hj. injection Hj as ->. lia.
  - destruct i as [|i].
    + cbn in Hi, Hj. replace x with d in * by congruence. rewrite Forall_forall in Hf.
      specialize (Hf (f_id dl) (in_map f_id _ _ (nth_error_In _ _ Hj))). lia.
    + cbn in Hi, Hj. apply (IH Hs' j i); [lia|assumption|assumption].
Qed.

Section Neg.
Variables (env : schema) (n i : nat) (ds : list fielddef) (d : fielddef).
Hypothesis He : table_schema env.
Hypothesis E : nth_error env n = Some ds.
Hypothesis Hi : nth_error ds i = Some d.
Hypothesis Hb : base_ty (f_ty d) = true.

Definition wire_id : Z := f_id d - (last_id ds + 1).
Definition wire_env : schema := neg_env wire_id (f_ty d).

Lemma wire_range : -32768 <= wire_id < 0.
Proof. unfold wire_id. pose proof (last_id_bounds _ _ _ _ _ He E Hi). lia. Qed.

Lemma wire_compat : compat_env wire_env env (fun a b => (a =? 0)%nat && (b =? n)%nat).
Proof.
  intros a b H. apply andb_prop in H. destruct H as [H1 H2].
  apply Nat.eqb_eq in H1, H2. subst a b. exists [mkfield wire_id (f_ty d) false None], ds.
  split; [reflexivity|]. split; [exact E|].
  intros dW dR HW HR Hid Hc. exfalso. destruct HW as [<-|[]]. cbn [f_id] in Hid.
  pose proof wire_range. destruct (He _ _ E) as [_ Hr]. specialize (Hr _ HR). lia.
Qed.

Lemma no_such_field v : find (fun dR => (wire_id =? f_id dR)
  && (code (f_ty d) =? code (f_ty dR))) v = None \/ exists x, In x v /\ f_id x = wire_id.
Proof.
  induction v as [|x v IH]; [left; reflexivity|]. cbn [find].
  destruct (wire_id =? f_id x) eqn:Ex.
  - right. exists x. split; [left; reflexivity|]. lia.
  - cbn [andb]. destruct IH as [IH|(y & H1 & H2)]; [left; exact IH|].
    right. exists y. split; [right; exact H1|exact H2].
Qed.

Lemma wire_proj v : proj wire_env env (TStruct 0) (TStruct n) (VStruct 0 [Some v])
  = VStruct n (fresh ds).
Proof.
  cbn [proj wire_env neg_env nth_error]. rewrite E. f_equal. unfold fresh.
  apply map_ext_in. intros dR HR. cbn [f_id].
  pose proof wire_range. destruct (He _ _ E) as [_ Hr]. specialize (Hr _ HR).
  replace (wire_id =? f_id dR) with false by lia. reflexivity.
Qed.

Lemma wire_drop p v D SL : base_okd D SL (f_ty d) v = true -> all_bin p v = true ->
  drop_ok wire_env env p SKIP_DEPTH (TStruct 0) (TStruct n) (VStruct 0 [Some v]) = true.
Proof.
  intros Hv Hp. cbn [drop_ok wire_env neg_env nth_error]. rewrite E. cbn [f_id f_ty].
  destruct (no_such_field ds) as [->|(x & Hx & Ex)].
  - rewrite Hp, !andb_true_r. destruct v; try reflexivity;
    destruct (f_ty d); try discriminate Hb; discriminate Hv.
  - exfalso. pose proof wire_range. destruct (He _ _ E) as [_ Hr]. specialize (Hr _ Hx). lia.
Qed.

Lemma wire_wf D SL CL v : base_okd D SL (f_ty d) v = true ->
  wfd D wire_env SL CL (TStruct 0) (VStruct 0 [Some v]) = true.
Proof.
  intros Hv. cbn [wfd wire_env neg_env nth_error f_ty Nat.eqb].
  rewrite (base_wf _ _ _ _ _ _ Hb Hv). reflexivity.
Qed.

Lemma wire_depth v D SL : base_okd D SL (f_ty d) v = true ->
  (sdepth (VStruct 0 [Some v]) <= 64)%nat.
Proof.
  intros Hv. destruct v; try (cbn; lia); destruct (f_ty d); try discriminate Hb; discriminate Hv.
Qed.

Lemma binary_negative cf SL CL v tail : b_limits cf SL CL ->
  base_ok SL (f_ty d) v = true -> all_bin utf8_valid v = true ->
  let bs := sb_value wire_env (TStruct 0) (VStruct 0 [Some v]) in
  deserialize (binary cf) tt env n (bs ++ tail) = Ok (VStruct n (fresh ds), tail)
  /\ ddeserialize (binary cf) tt env n (bs ++ tail)
     = Ok (VStruct n (set_nth i (Some v) (fresh ds)), tail).
Proof.
  intros Hl Hv Hp bs. pose proof wire_range as Hw. split.
  - rewrite <- (wire_proj v).
    apply (binary_deserialize cf SL CL wire_env env
             (fun a b => (a =? 0)%nat && (b =? n)%nat)); try assumption.
    + apply neg_env_ok. lia.
    + apply id16_table, He.
    + apply wire_compat.
    + rewrite !Nat.eqb_refl. reflexivity.
    + apply wire_wf, Hv.
    + eapply wire_depth, Hv.
    + eapply wire_drop; eassumption.
  - unfold ddeserialize. set (L := binary_laws cf SL CL Hl).
    destruct (length (bs ++ tail)) as [|lb] eqn:El.
    { exfalso. rewrite app_length in El.
      assert (length bs = 0)%nat as B by lia. revert B. unfold bs.
      cbn [sb_value wire_env neg_env nth_error]. rewrite !app_length. cbn. lia. }
    rewrite Nat.add_succ_r.
    destruct (dread_negative L env n ds i d v (last_id ds) tt (DFUEL + lb) lb tail tt
      (bs ++ tail) [] 0) as (x' & i' & E' & Hr); try assumption.
    + apply (He _ _ E).
    + eapply last_id_at, Hi.
    + cbn [L binary_laws idok]. fold wire_id. unfold id16, between. lia.
    + exact I.
    + fold wire_id. unfold L. rewrite (enc_binary_spec cf SL CL Hl). reflexivity.
    + rewrite E'. cbn in Hr. subst i'. reflexivity.
Qed.

Lemma compact_negative cf SL CL v tail : c_limits cf SL CL ->
  base_ok SL (f_ty d) v = true -> all_bin utf8_valid v = true ->
  let bs := sc_value wire_env (TStruct 0) (VStruct 0 [Some v]) in
  deserialize (compact cf) c_init env n (bs ++ tail) = Ok (VStruct n (fresh ds), tail)
  /\ ddeserialize (compact cf) c_init env n (bs ++ tail)
     = Ok (VStruct n (set_nth i (Some v) (fresh ds)), tail).
Proof.
  intros Hl Hv Hp bs. pose proof wire_range as Hw. split.
  - rewrite <- (wire_proj v).
    apply (compact_deserialize cf SL CL wire_env env
             (fun a b => (a =? 0)%nat && (b =? n)%nat)); try assumption.
    + apply neg_env_ok. lia.
    + apply id16_table, He.
    + apply wire_compat.
    + rewrite !Nat.eqb_refl. reflexivity.
    + apply wire_wf, Hv.
    + eapply wire_depth, Hv.
    + eapply wire_drop; eassumption.
  - unfold ddeserialize. set (L := compact_laws cf SL CL Hl).
    assert (Ee : enc L wire_env (c_top c_init) (TStruct 0) (VStruct 0 [Some v]) = bs)
      by (apply (enc_compact_spec cf SL CL Hl); exact I).
    destruct (length (bs ++ tail)) as [|lb] eqn:El.
    { exfalso. rewrite app_length in El.
      assert (length bs = 0)%nat as B by lia. revert B. unfold bs.
      cbn [sc_value wire_env neg_env nth_error f_id f_ty]. rewrite !app_length. cbn. lia. }
    rewrite Nat.add_succ_r.
    destruct (dread_negative L env n ds i d v (last_id ds) (c_top c_init) (DFUEL + lb) lb tail
      c_init (bs ++ tail) [] 0) as (x' & i' & E' & Hr); try assumption.
    + apply (He _ _ E).
    + eapply last_id_at, Hi.
    + cbn [L compact_laws idok]. fold wire_id. unfold id16, between. lia.
    + exact I.
    + rewrite <- Ee. apply ready_rrep. repeat split.
    + rewrite E'. apply (rrep_ready c_init) in Hr. destruct Hr as [-> _]. reflexivity.
Qed.
End Neg.
