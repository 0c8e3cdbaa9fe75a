(** The table-driven reader on encodings, and where it differs from the
    generated reader. *)
From Coq Require Import ZArith List Bool Lia ZifyBool ZifyNat Sorted.
From Coq Require Import Init.Byte.
From Verif Require Import Base Bytes Utf8 Proto Spec Laws RoundTrip StructFacts
  Binary BinaryLaws SpecBinary Compact CompactLaws SpecCompact WireFacts InstFacts
  JsonText Json JsonLaws SpecJson JsonFacts
  Dynamic SpecDynamic Closure DynamicFacts DynamicInst.
Import ListNotations.
Open Scope Z_scope.

(** The observer stays silent on encodings without negative ids. *)
Section Checked.
Context {X : Type} {P : proto X} {SL CL : Z} (L : laws P SL CL).
Hypothesis HC : CL <= 9223372036854775807.

Lemma rd_size {A} (size : A -> Z) Q c c' bs m (v : A) :
  0 <= size v <= 9223372036854775807 ->
  Rd (rrep L) Q c c' bs m v -> Rd (rrep L) Q c c' bs (size_seen size m) v.
Proof.
  intros Hv H tail HQ x i o d Hr. destruct (H tail HQ x i o d Hr) as (x' & i' & E & Hr').
  exists x', i'. split; [|exact Hr']. unfold size_seen, bind. rewrite E.
  destruct ((0 <=? size v) && _) eqn:E1; [reflexivity|lia].
Qed.

Lemma rd_id Q c c' bs m t id : t = T_STOP \/ 0 <= id ->
  Rd (rrep L) Q c c' bs m (t, id) -> Rd (rrep L) Q c c' bs (id_seen m) (t, id).
Proof.
  intros Hv H tail HQ x i o d Hr. destruct (H tail HQ x i o d Hr) as (x' & i' & E & Hr').
  exists x', i'. split; [|exact Hr']. unfold id_seen, bind. rewrite E.
  destruct ((t =? T_STOP) || _) eqn:E1; [reflexivity|lia].
Qed.

Definition checked_laws : laws (checked P) SL CL.
Proof.
  unshelve refine (mklaws X (checked P) SL CL (C L)
    (wrep L) (rrep L) (okT L) (skbin L) (dok L) (fun id => idok L id && (0 <=? id))
    (nxt L) (inS L) (inF L) (aft L) (stp L) (inL L) (inM L)
    (spos L) (vpos L) (epos L) (bpos L) (fpos L) (lpos L) (mpos L)
    (e_base L) (e_sbeg L) (e_fbeg L) (e_fend L) (e_stop L) (e_send L)
    (e_lbeg L) (e_lend L) (e_mbeg L) (e_mend L) (mret L)
    (p_vs _ _ _ L) (p_ev _ _ _ L) (p_eb _ _ _ L) (p_fS _ _ _ L) (p_fA _ _ _ L)
    (p_F _ _ _ L) (p_Fb _ _ _ L) (p_L _ _ _ L) (p_Ln _ _ _ L) (p_Le _ _ _ L)
    (p_Li _ _ _ L) (p_M _ _ _ L) (p_Mn _ _ _ L) (p_Mk _ _ _ L) (p_Mv _ _ _ L)
    (w_base _ _ _ L) (w_sbeg _ _ _ L) _ _ (w_fend _ _ _ L) (w_send _ _ _ L)
    (w_lbeg _ _ _ L) (w_lend _ _ _ L) (w_tbeg _ _ _ L) (w_tend _ _ _ L)
    (w_mbeg _ _ _ L) (w_mend _ _ _ L)
    (r_base _ _ _ L) (r_skbin _ _ _ L) (r_sbeg _ _ _ L) _ (r_fend _ _ _ L) _
    (r_send _ _ _ L) _ (r_lend _ _ _ L) _ (r_tend _ _ _ L) _ (r_mend _ _ _ L)
    (mret_pos _ _ _ L) (mret_zero _ _ _ L)
    (t_fend _ _ _ L) (t_lend _ _ _ L) (t_mend _ _ _ L) (t_base _ _ _ L)
    (t_sbeg _ _ _ L) (t_lbeg _ _ _ L) (t_mbeg _ _ _ L)
    (l_base _ _ _ L) (l_fbeg _ _ _ L) (l_stop _ _ _ L) (l_lbeg _ _ _ L)
    (l_mbeg _ _ _ L)).
  - intros c f id t Hf Hi. apply andb_prop in Hi as [Hi _]. apply (w_fbeg _ _ _ L c); assumption.
  - intros c f id b Hf Hi. apply andb_prop in Hi as [Hi _]. apply (w_fbool _ _ _ L c); assumption.
  - intros c f id t ob Hf Hi Ht. apply andb_prop in Hi as [Hi H0].
    apply rd_id; [right; lia|]. apply (r_fbeg _ _ _ L c); assumption.
  - intros c f Hf tail. destruct (r_stop _ _ _ L c f Hf tail) as [z Hz]. exists z.
    apply rd_id; [left; reflexivity|exact Hz].
  - intros c t n Hv Hn. apply (rd_size snd); [cbn [snd]; lia|]. apply (r_lbeg _ _ _ L); assumption.
  - intros c t n Hv Hn. apply (rd_size snd); [cbn [snd]; lia|]. apply (r_tbeg _ _ _ L); assumption.
  - intros c k t n Hv Hn. apply (rd_size snd); [|apply (r_mbeg _ _ _ L); assumption].
    destruct (Z.eq_dec n 0) as [->|Hn0].
    + rewrite (mret_zero _ _ _ L). lia.
    + rewrite (mret_pos _ _ _ L) by lia. cbn [snd]. lia.
Defined.

Lemma enc_checked env : forall v c t, enc checked_laws env c t v = enc L env c t v.
Proof. reflexivity. Qed.

Variables (c0 : C L) (x0 : X).
Hypothesis Hs : spos L c0.

(** Where the generated reader decodes an encoding, so does the table-driven
    one. *)
Lemma dread_enc envW envR R n m v tail F i o d r :
  rreads (agree (fun e => e = OUTSIDE \/ e = EProtocol TP_DEPTH_LIMIT)) P ->
  schema_okd (idok L) envW -> schema_okd (idok L) envR ->
  table_schema envW -> table_schema envR -> compat_env envW envR R ->
  R n m = true ->
  rrep L c0 x0 i (enc L envW c0 (TStruct n) v ++ tail) ->
  wfd (dok L) envW SL CL (TStruct n) v = true ->
  0 <= d -> d + Z.of_nat (sdepth v) <= 64 ->
  drop_ok envW envR (skbin L) SKIP_DEPTH (TStruct n) (TStruct m) v = true ->
  (length (enc L envW c0 (TStruct n) v) <= F)%nat ->
  read_struct P envR DFUEL F m (mkst x0 i o d) = r ->
  forall k, (DFUEL <= k)%nat -> dread_struct P envR k F m (mkst x0 i o d) = r.
Proof.
  intros RP HokW HokR HtW HtR HR Hnm Hr Hwf H0 Hd Hdr HF E k Hk.
  assert (ok : forall e, schema_okd (idok L) e -> table_schema e ->
                 schema_okd (idok checked_laws) e).
  { intros e H1 H2 n' ds Eds. destruct (H1 _ _ Eds) as [K1 K2]. split; [exact K1|].
    intros dd Hdd. cbn [idok checked_laws]. rewrite (K2 _ Hdd). cbn [andb].
    destruct (H2 _ _ Eds) as [_ H2']. specialize (H2' _ Hdd). lia. }
  destruct (read_enc checked_laws envW envR R (ok _ HokW HtW) (ok _ HokR HtR) HR
     F v d (TStruct n) (TStruct m) c0 DFUEL H0 Hnm Hs Hwf
     Hd ltac:(unfold DFUEL; lia) HF Hdr tail I x0 i o Hr)
    as (x' & i' & E' & H').
  cbn [read_ty] in E'.
  assert (Hq : (fun e => e = OUTSIDE \/ e = EProtocol TP_DEPTH_LIMIT) (EProtocol TP_DEPTH_LIMIT))
    by (right; reflexivity).
  pose proof (read_agree _ Hq (or_introl eq_refl) P RP envR DFUEL DFUEL F F m (le_n _) (le_n _) 0
    (mkst x0 i o d) ltac:(lia)) as A.
  pose proof (dread_agree _ Hq (or_introl eq_refl) P RP envR HtR DFUEL k F F m Hk (le_n _) 0
    (mkst x0 i o d) ltac:(lia)) as B.
  rewrite E' in A, B. destruct A as [_ A], B as [_ B].
  assert (Z0 : forall x i d, @shift X 0 (mkst x i o d) = mkst x i o d).
  { intros. unfold shift. cbn. f_equal. lia. }
  rewrite Z0 in A, B. congruence.
Qed.

End Checked.

(** * One field, read through the table *)

Section OneField.
Context {X : Type} {P : proto X} {SL CL : Z} (L : laws P SL CL).

Lemma dread_one env n ds id i d v envW c k F (w : value) tail x inp o dp :
  nth_error env n = Some ds -> idok L id = true -> spos L c ->
  py_index (thrift_spec ds) id = Some (Some (i, d)) ->
  (f_ty d = TBool <-> fold_bool (f_ty d) v <> None) ->
  RdD (rrep L) dp (okT L) (inF L (inS L c) id (fold_bool (f_ty d) v))
    (nxt L (inF L (inS L c) id (fold_bool (f_ty d) v)))
    (enc L envW (inF L (inS L c) id (fold_bool (f_ty d) v)) (f_ty d) v)
    (dread_ty P (dread_struct P env k (S (S F))) (S (S F)) (f_ty d)) w ->
  rrep L c x inp (e_sbeg L c
    ++ e_fbeg L (inS L c) id (code (f_ty d)) (fold_bool (f_ty d) v)
    ++ enc L envW (inF L (inS L c) id (fold_bool (f_ty d) v)) (f_ty d) v
    ++ e_fend L ++ e_stop L ++ e_send L ++ tail) ->
  exists x' i', dread_struct P env (S k) (S (S F)) n (mkst x inp o dp)
    = (Ok (VStruct n (set_nth i (Some w) (fresh ds))), mkst x' i' o dp)
    /\ rrep L (nxt L c) x' i' tail.
Proof.
  intros E Hid Hc Hix Hb Hv Hr.
  set (f := inS L c) in *. set (ob := fold_bool (f_ty d) v) in *.
  pose proof (p_fS _ _ _ L c Hc) as Hf. fold f in Hf.
  pose proof (p_fA _ _ _ L c f id Hf) as Hf2.
  destruct (r_sbeg _ _ _ L c Hc _ I x inp o dp Hr) as (x1 & i1 & E1 & R1).
  destruct (r_fbeg _ _ _ L c f id (f_ty d) ob Hf Hid Hb _ I x1 i1 o dp R1)
    as (x2 & i2 & E2 & R2).
  destruct (Hv _ (t_fend _ _ _ L _) x2 i2 o R2) as (x3 & i3 & E3 & R3).
  destruct (r_fend _ _ _ L c f id ob Hf _ I x3 i3 o dp R3) as (x4 & i4 & E4 & R4).
  destruct (r_stop _ _ _ L c _ Hf2 tail) as [z Hz].
  destruct (Hz _ eq_refl x4 i4 o dp R4) as (x5 & i5 & E5 & R5).
  destruct (r_send _ _ _ L c _ Hc Hf2 tail I x5 i5 o dp R5) as (x6 & i6 & E6 & R6).
  exists x6, i6. split; [|exact R6].
  cbn [dread_struct]. rewrite E. unfold bind at 1. rewrite E1.
  unfold bind at 1. cbn [dread_fields].
  unfold bind at 1. rewrite E2. rewrite code_not_stop, Hix, Z.eqb_refl.
  unfold bind at 1. rewrite E3. unfold bind at 1. rewrite E4.
  unfold bind at 1. rewrite E5. change (T_STOP =? T_STOP) with true.
  cbv iota. unfold ret at 1. unfold bind. rewrite E6. reflexivity.
Qed.

End OneField.

(** A negative id counts from the end of the table. *)
Lemma negative_index ds i d M : sorted_ids ds -> nth_error ds i = Some d ->
  (exists dl, nth_error ds (length ds - 1) = Some dl /\ f_id dl = M) ->
  py_index (thrift_spec ds) (f_id d - (M + 1)) = Some (Some (i, d)).
Proof.
  intros Hs Hi (dl & Hl & HM). pose proof Hs as [Hss Hb].
  assert (Hlen : Z.of_nat (length (thrift_spec ds)) = M + 1).
  { rewrite (spec_is_entries _ Hs), entries_length
      by (auto; try lia; intros x Hx; apply Hb; assumption).
    destruct (rev ds) as [|e r] eqn:E.
    - apply (f_equal (@rev _)) in E. rewrite rev_involutive in E. subst ds.
      destruct i; discriminate.
    - apply (f_equal (@rev _)) in E. rewrite rev_involutive in E. cbn [rev] in E.
      rewrite E, app_length, Nat.add_1_r, Nat.sub_succ, Nat.sub_0_r in Hl.
      rewrite nth_error_app2, Nat.sub_diag in Hl by lia. cbn [nth_error] in Hl.
      injection Hl as <-. lia. }
  assert (Hd : 0 <= f_id d <= M).
  { split; [apply Hb; eapply nth_error_In; eassumption|].
    rewrite <- HM. destruct (Nat.eq_dec i (length ds - 1)) as [->|Hne].
    - rewrite Hl in Hi. injection Hi as ->. lia.
    - assert (Hi2 : (i < length ds)%nat) by (apply nth_error_Some; congruence).
      clear - Hss Hi Hl Hne Hi2. revert i Hi Hne Hi2. induction ds as [|e ds IH]; intros i Hi Hne Hi2.
      + destruct i; discriminate.
      + inversion Hss as [|? ? Hss' Hf]; subst. destruct i as [|i].
        * injection Hi as ->. destruct ds as [|e2 ds]; [cbn in Hne; lia|].
          cbn [length] in Hl. rewrite Nat.sub_succ, Nat.sub_0_r in Hl. cbn [nth_error] in Hl.
          rewrite Forall_forall in Hf. apply Z.lt_le_incl, Hf, in_map.
          eapply nth_error_In; eassumption.
        * destruct ds as [|e2 ds]; [destruct i; discriminate|].
          assert (Hl' : nth_error (e2 :: ds) (length (e2 :: ds) - 1) = Some dl).
          { cbn [length] in *. rewrite Nat.sub_succ, Nat.sub_0_r in *. exact Hl. }
          apply (IH Hl' Hss' i); [exact Hi|cbn [length] in *; lia|cbn [length] in *; lia]. }
  pose proof (lookup_find ds (f_id d) Hs ltac:(lia)) as Hlk.
  assert (Hff : find_field ds (f_id d) = Some (i, d)).
  { clear - Hss Hi. revert i Hi. induction ds as [|e ds IH]; intros i Hi; [destruct i; discriminate|].
    inversion Hss as [|? ? Hss' Hf]; subst. cbn [find_field]. destruct i as [|i].
    - injection Hi as ->. rewrite Z.eqb_refl. reflexivity.
    - cbn [nth_error] in Hi. rewrite Forall_forall in Hf.
      assert (f_id e < f_id d) by (apply Hf, in_map; eapply nth_error_In; eassumption).
      destruct (f_id d =? f_id e) eqn:E; [lia|]. rewrite (IH Hss' _ Hi). reflexivity. }
  rewrite Hff in Hlk. unfold py_index in *. rewrite Hlen in *.
  destruct ((0 <=? f_id d) && (f_id d <? M + 1)) eqn:E1; [|lia].
  destruct ((0 <=? f_id d - (M + 1)) && _) eqn:E2; [lia|].
  destruct ((- (M + 1) <=? f_id d - (M + 1)) && _) eqn:E3; [|lia].
  replace (Z.to_nat (M + 1 + (f_id d - (M + 1)))) with (Z.to_nat (f_id d)) by lia.
  destruct (nth_error (thrift_spec ds) (Z.to_nat (f_id d))) as [o|]; [|discriminate].
  congruence.
Qed.

(** * A chain of nested structs *)

(** struct S { 1: S next } *)
Definition rec_env : schema := [[mkfield 1 (TStruct 0) false None]].

Fixpoint chain (n : nat) : value :=
  VStruct 0 [match n with O => None | S k => Some (chain k) end].

Lemma rec_env_ok : schema_ok rec_env.
Proof.
  intros [|n] ds E; [|destruct n; discriminate]. injection E as <-.
  split; [repeat constructor; intros []|]. intros d [<-|[]]. reflexivity.
Qed.

Lemma rec_env_table : table_schema rec_env.
Proof.
  intros [|n] ds E; [|destruct n; discriminate]. injection E as <-.
  split; [repeat constructor|]. intros d [<-|[]]. cbn. lia.
Qed.

Lemma chain_wf D SL CL n : wfd D rec_env SL CL (TStruct 0) (chain n) = true.
Proof. induction n; cbn in *; [reflexivity|]. rewrite IHn. reflexivity. Qed.

Lemma chain_depth n : sdepth (chain n) = S n.
Proof. induction n; cbn in *; [reflexivity|]. rewrite IHn. lia. Qed.

Section Chain.
Context {X : Type} {P : proto X} {SL CL : Z} (L : laws P SL CL).
Hypothesis H1 : idok L 1 = true.

Lemma chain_write n : forall c dp, spos L c ->
  WrD (wrep L) dp c (nxt L c) (enc L rec_env c (TStruct 0) (chain n))
      (dwrite_struct P rec_env 0 (chain n)).
Proof.
  unfold dwrite_struct.
  induction n as [|n IH]; intros c dp Hc x i o Hr;
    pose proof (p_fS _ _ _ L c Hc) as Hf;
    destruct (w_sbeg _ _ _ L c Hc x i o dp Hr) as (x1 & E1 & R1).
  - destruct (w_send _ _ _ L c _ Hc Hf x1 i (o ++ e_sbeg L c) dp R1) as (x2 & E2 & R2).
    exists x2. split; [|exact R2]. cbn [chain dwrite_value nth_error rec_env map].
    rewrite (bind_ok _ _ _ _ _ E1).
    change (thrift_spec [mkfield 1 (TStruct 0) false None])
      with [None; Some (O, mkfield 1 (TStruct 0) false None)].
    cbn [dwrite_fields nth_error].
    rewrite (bind_ok (ret tt) _ _ _ _ eq_refl), E2.
    rewrite <- app_assoc. reflexivity.
  - destruct (w_fbeg _ _ _ L c _ 1 (TStruct 0) Hf H1 ltac:(discriminate) x1 i (o ++ e_sbeg L c) dp R1)
      as (x2 & E2 & R2).
    assert (Hs2 : spos L (inF L (inS L c) 1 None)).
    { apply (p_vs _ _ _ L). apply (p_F _ _ _ L c). exact Hf. }
    set (o1 := (o ++ e_sbeg L c) ++ _) in E2.
    destruct (IH _ dp Hs2 x2 i o1 R2) as (x3 & E3 & R3).
    set (o2 := o1 ++ _) in E3.
    destruct (w_fend _ _ _ L c _ 1 None Hf x3 i o2 dp R3) as (x4 & E4 & R4).
    set (o3 := o2 ++ _) in E4.
    pose proof (p_fA _ _ _ L c _ 1 Hf) as Hf2.
    destruct (w_send _ _ _ L c _ Hc Hf2 x4 i o3 dp R4) as (x5 & E5 & R5).
    exists x5. split; [|exact R5]. cbn [chain dwrite_value nth_error rec_env map f_ty f_id].
    rewrite (bind_ok _ _ _ _ _ E1).
    change (thrift_spec [mkfield 1 (TStruct 0) false None])
      with [None; Some (O, mkfield 1 (TStruct 0) false None)].
    cbn [dwrite_fields nth_error f_ty f_id code].
    change (code (TStruct 0)) with T_STRUCT in E2.
    rewrite bind_assoc, (bind_ok _ _ _ _ _ E2).
    rewrite bind_assoc, (bind_ok _ _ _ _ _ E3).
    rewrite bind_assoc, (bind_ok _ _ _ _ _ E4).
    rewrite (bind_ok (ret tt) _ _ _ _ eq_refl), E5. unfold o3, o2, o1. cbn [enc rec_env nth_error chain]. cbn [f_ty f_id fold_bool code].
    rewrite <- !app_assoc. reflexivity.
Qed.

Lemma chain_read n : forall c dp k F, spos L c -> (n < k)%nat ->
  RdD (rrep L) dp anyT c (nxt L c) (enc L rec_env c (TStruct 0) (chain n))
      (dread_struct P rec_env k (S (S F)) 0) (chain n).
Proof.
  induction n as [|n IH]; intros c dp k F Hc Hk tail _ x i o Hr;
    (destruct k as [|k]; [lia|]);
    pose proof (p_fS _ _ _ L c Hc) as Hf.
  - cbn [enc chain rec_env nth_error] in Hr. rewrite <- !app_assoc in Hr.
    destruct (r_sbeg _ _ _ L c Hc _ I x i o dp Hr) as (x1 & i1 & E1 & R1).
    destruct (r_stop _ _ _ L c _ Hf tail) as [z Hz].
    destruct (Hz _ eq_refl x1 i1 o dp R1) as (x5 & i5 & E5 & R5).
    destruct (r_send _ _ _ L c _ Hc Hf tail I x5 i5 o dp R5) as (x6 & i6 & E6 & R6).
    exists x6, i6. split; [|exact R6].
    cbn [dread_struct rec_env nth_error]. unfold bind at 1. rewrite E1.
    unfold bind at 1. cbn [dread_fields]. unfold bind at 1. rewrite E5.
    change (T_STOP =? T_STOP) with true. cbv iota. unfold ret at 1. unfold bind.
    rewrite E6. reflexivity.
  - cbn [enc chain] in Hr. cbn [rec_env nth_error f_ty f_id fold_bool] in Hr.
    rewrite <- !app_assoc in Hr.
    set (dd := mkfield 1 (TStruct 0) false None).
    destruct (dread_one L rec_env 0 [dd] 1 0 dd (chain n) rec_env c k F (chain n) tail x i o dp)
      as (x' & i' & E & R'); try assumption.
    + reflexivity.
    + reflexivity.
    + cbn. split; congruence.
    + assert (Hs2 : spos L (inF L (inS L c) 1 None)).
      { apply (p_vs _ _ _ L). apply (p_F _ _ _ L c). exact Hf. }
      cbn [fold_bool f_ty dd dread_ty].
      eapply Rd_weak; [apply IH; [exact Hs2|lia]|]. intros; exact I.
    + exists x', i'. split; [exact E|exact R'].
Qed.
End Chain.

(** * Each protocol *)

Lemma base_wf env SL CL t v D : base_ty t = true -> base_okd D SL t v = true ->
  wfd D env SL CL t v = true.
Proof. intros Hb H. destruct t; try discriminate Hb; destruct v; exact H. Qed.

Section Negative.
Context {X : Type} {P : proto X} {SL CL : Z} (L : laws P SL CL).

Lemma dread_negative env n ds i d v M c k F tail x inp o dp :
  nth_error env n = Some ds -> sorted_ids ds -> nth_error ds i = Some d ->
  (exists dl, nth_error ds (length ds - 1) = Some dl /\ f_id dl = M) ->
  idok L (f_id d - (M + 1)) = true -> spos L c ->
  base_ty (f_ty d) = true -> base_okd (dok L) SL (f_ty d) v = true ->
  let envW := [[mkfield (f_id d - (M + 1)) (f_ty d) false None]] in
  rrep L c x inp (enc L envW c (TStruct 0) (VStruct 0 [Some v]) ++ tail) ->
  exists x' i', dread_struct P env (S k) (S (S F)) n (mkst x inp o dp)
    = (Ok (VStruct n (set_nth i (Some v) (fresh ds))), mkst x' i' o dp)
    /\ rrep L (nxt L c) x' i' tail.
Proof.
  intros E Hs Hi HM Hid Hc Hb Hv envW Hr.
  pose proof (base_wf envW SL CL _ _ (dok L) Hb Hv) as Hw.
  eapply dread_one; try eassumption.
  - apply negative_index; assumption.
  - eapply fold_bool_iff. exact Hw.
  - pose proof (p_fS _ _ _ L c Hc) as Hf.
    pose proof (rpos_field L envW c _ (f_id d - (M + 1)) (f_ty d) v Hf Hw) as Hp.
    assert (Ee : forall c', enc L envW c' (f_ty d) v = e_base L c' (f_ty d) v).
    { intros c'. destruct (f_ty d); try discriminate Hb; destruct v; reflexivity. }
    rewrite Ee.
    assert (Er : forall rs K, dread_ty P rs K (f_ty d) = read_base P (f_ty d)).
    { intros. destruct (f_ty d); try discriminate Hb; reflexivity. }
    rewrite Er. apply Rd_D, r_base; [|exact Hb|exact Hv].
    unfold rpos in Hp. destruct (f_ty d), v; try discriminate Hb; exact Hp.
  - cbn [enc nth_error envW f_ty f_id] in Hr. rewrite <- !app_assoc in Hr. exact Hr.
Qed.
End Negative.

Definition qd (e : exn) : Prop := e = OUTSIDE \/ e = EProtocol TP_DEPTH_LIMIT.
Lemma qd_depth : qd (EProtocol TP_DEPTH_LIMIT).
Proof. right. reflexivity. Qed.

Lemma id16_table env : table_schema env -> schema_ok env.
Proof.
  intros H n ds E. destruct (H _ _ E) as [H1 H2]. split.
  - clear - H1. induction (map f_id ds) as [|a l IH]; constructor.
    + inversion H1 as [|? ? ? Hf]; subst. rewrite Forall_forall in Hf. intros Hin.
      specialize (Hf a Hin). lia.
    + apply IH. inversion H1; assumption.
  - intros d Hd. specialize (H2 _ Hd). unfold id16, between. lia.
Qed.

Lemma binary_dread cf SL CL envW envR R n m v tail : b_limits cf SL CL ->
  table_schema envW -> table_schema envR -> compat_env envW envR R -> R n m = true ->
  wf envW SL CL (TStruct n) v = true -> (sdepth v <= 64)%nat ->
  drop_ok envW envR utf8_valid SKIP_DEPTH (TStruct n) (TStruct m) v = true ->
  ddeserialize (binary cf) tt envR m (sb_value envW (TStruct n) v ++ tail)
  = Ok (proj envW envR (TStruct n) (TStruct m) v, tail).
Proof.
  intros Hl HW HR HC Hnm Hwf Hd Hdr. unfold ddeserialize.
  set (F := S (length (sb_value envW (TStruct n) v ++ tail))).
  assert (HF : (length (sb_value envW (TStruct n) v) <= F)%nat)
    by (unfold F; rewrite app_length; lia).
  pose proof (binary_read cf SL CL envW envR R n m v tail [] 0 F Hl (id16_table _ HW)
    (id16_table _ HR) HC Hnm Hwf ltac:(lia) ltac:(lia) Hdr HF) as E.
  assert (HC9 : CL <= 9223372036854775807) by (destruct Hl as (? & ? & ?); lia).
  assert (Ee : enc (binary_laws cf SL CL Hl) envW tt (TStruct n) v
               = sb_value envW (TStruct n) v) by apply (enc_binary_spec cf SL CL Hl).
  pose proof (dread_enc (binary_laws cf SL CL Hl) HC9 tt tt I
    envW envR R n m v tail F (sb_value envW (TStruct n) v ++ tail) [] 0 _
    (binary_ag_r _ qd_depth cf) (id16_table _ HW) (id16_table _ HR) HW HR HC Hnm
    (f_equal (fun z => z ++ tail) (eq_sym Ee)) Hwf ltac:(lia) ltac:(lia) Hdr
    (eq_ind_r (fun z => (length z <= F)%nat) HF Ee) E
    (DFUEL + length (sb_value envW (TStruct n) v ++ tail))%nat ltac:(lia)) as K.
  rewrite K. reflexivity.
Qed.

Lemma compact_dread cf SL CL envW envR R n m v tail : c_limits cf SL CL ->
  table_schema envW -> table_schema envR -> compat_env envW envR R -> R n m = true ->
  wf envW SL CL (TStruct n) v = true -> (sdepth v <= 64)%nat ->
  drop_ok envW envR utf8_valid SKIP_DEPTH (TStruct n) (TStruct m) v = true ->
  ddeserialize (compact cf) c_init envR m (sc_value envW (TStruct n) v ++ tail)
  = Ok (proj envW envR (TStruct n) (TStruct m) v, tail).
Proof.
  intros Hl HW HR HC Hnm Hwf Hd Hdr. unfold ddeserialize.
  set (F := S (length (sc_value envW (TStruct n) v ++ tail))).
  assert (HF : (length (sc_value envW (TStruct n) v) <= F)%nat)
    by (unfold F; rewrite app_length; lia).
  destruct (compact_read cf SL CL envW envR R n m v tail c_init [] 0 F Hl
    (id16_table _ HW) (id16_table _ HR) HC Hnm Hwf ltac:(lia) ltac:(lia) Hdr HF
    ltac:(repeat split)) as (x' & E & _).
  assert (HC9 : CL <= 9223372036854775807) by (destruct Hl as (? & ? & ?); lia).
  assert (Ee : enc (compact_laws cf SL CL Hl) envW (c_top c_init) (TStruct n) v
               = sc_value envW (TStruct n) v)
    by (apply (enc_compact_spec cf SL CL Hl); exact I).
  assert (Hr : rrep (compact_laws cf SL CL Hl) (c_top c_init) c_init
     (sc_value envW (TStruct n) v ++ tail)
     (enc (compact_laws cf SL CL Hl) envW (c_top c_init) (TStruct n) v ++ tail)).
  { rewrite Ee. apply ready_rrep. repeat split. }
  pose proof (dread_enc (compact_laws cf SL CL Hl) HC9 (c_top c_init) c_init I
    envW envR R n m v tail F (sc_value envW (TStruct n) v ++ tail) [] 0 _
    (compact_ag_r _ qd_depth cf) (id16_table _ HW) (id16_table _ HR) HW HR HC Hnm
    Hr Hwf ltac:(lia) ltac:(lia) Hdr
    (eq_ind_r (fun z => (length z <= F)%nat) HF Ee) E
    (DFUEL + length (sc_value envW (TStruct n) v ++ tail))%nat ltac:(lia)) as K.
  rewrite K. reflexivity.
Qed.

Lemma json_dread limit SL CL envW envR R n m v tail : j_limits limit SL CL ->
  table_schema envW -> table_schema envR -> compat_env envW envR R -> R n m = true ->
  wfd finite envW SL CL (TStruct n) v = true -> (sdepth v <= 64)%nat ->
  drop_ok envW envR (fun _ => true) SKIP_DEPTH (TStruct n) (TStruct m) v = true ->
  ddeserialize (json limit) j_init envR m (sj_value envW false (TStruct n) v ++ tail)
  = Ok (proj envW envR (TStruct n) (TStruct m) v, tail).
Proof.
  intros Hl HW HR HC Hnm Hwf Hd Hdr. unfold ddeserialize.
  set (F := S (length (sj_value envW false (TStruct n) v ++ tail))).
  assert (HF : (length (sj_value envW false (TStruct n) v) <= F)%nat)
    by (unfold F; rewrite app_length; lia).
  pose proof (json_read limit SL CL envW envR R n m v tail j_init [] 0 F Hl (id16_table _ HW)
    (id16_table _ HR) HC Hnm Hwf ltac:(lia) ltac:(lia) Hdr HF eq_refl) as E.
  assert (HC9 : CL <= 9223372036854775807) by apply Hl.
  pose proof (enc_json_spec limit SL CL Hl envW v [CBase] (TStruct n) Hwf) as Ee.
  cbn [sep top esc j_nxt adv app] in Ee.
  assert (Hr : rrep (json_laws limit SL CL Hl) [CBase] j_init
     (sj_value envW false (TStruct n) v ++ tail)
     (enc (json_laws limit SL CL Hl) envW [CBase] (TStruct n) v ++ tail)).
  { rewrite Ee. split; reflexivity. }
  pose proof (dread_enc (json_laws limit SL CL Hl) HC9 [CBase] j_init I
    envW envR R n m v tail F (sj_value envW false (TStruct n) v ++ tail) [] 0 _
    (json_ag_r _ qd_depth limit) (id16_table _ HW) (id16_table _ HR) HW HR HC Hnm
    Hr Hwf ltac:(lia) ltac:(lia) Hdr
    (eq_ind_r (fun z => (length z <= F)%nat) HF Ee) E
    (DFUEL + length (sj_value envW false (TStruct n) v ++ tail))%nat ltac:(lia)) as K.
  rewrite K. reflexivity.
Qed.
