(** Proofs about the table-driven struct code. *)
From Coq Require Import ZArith List Bool Lia ZifyBool ZifyNat Sorted.
From Coq Require Import Init.Byte.
From Verif Require Import Base Bytes Utf8 Proto Dynamic SpecDynamic Closure.
Import ListNotations.
Open Scope Z_scope.

(** * The field table *)

Lemma entries_length pos i ds : 0 <= pos -> StronglySorted Z.lt (map f_id ds) ->
  (forall d, In d ds -> pos <= f_id d) ->
  Z.of_nat (length (spec_entries pos i ds)) = match rev ds with
    | [] => 0 | d :: _ => f_id d + 1 - pos end.
Proof.
  revert pos i. induction ds as [|d ds IH]; intros pos i Hp Hs Hb; [reflexivity|].
  cbn [spec_entries rev]. rewrite app_length, repeat_length. cbn [length].
  pose proof (Hb d (or_introl eq_refl)) as Hd.
  inversion Hs as [|? ? Hs' Hf]; subst.
  assert (Hb' : forall d', In d' ds -> f_id d + 1 <= f_id d').
  { intros d' Hi. rewrite Forall_forall in Hf. specialize (Hf (f_id d')).
    rewrite in_map_iff in Hf. specialize (Hf (ex_intro _ d' (conj eq_refl Hi))). lia. }
  specialize (IH (f_id d + 1) (S i) ltac:(lia) Hs' Hb').
  destruct (rev ds) as [|e r] eqn:E; cbn [app]; rewrite !Nat2Z.inj_add, Nat2Z.inj_succ, IH; lia.
Qed.

Lemma find_field_none ds fid : (forall d, In d ds -> f_id d <> fid) ->
  find_field ds fid = None.
Proof.
  induction ds as [|d ds IH]; intros H; [reflexivity|]. cbn [find_field].
  pose proof (H d (or_introl eq_refl)). destruct (fid =? f_id d) eqn:E; [lia|].
  rewrite IH; [reflexivity|]. intros d' Hi. apply H. right; assumption.
Qed.

Definition bump (i : nat) (o : option (nat * fielddef)) :=
  match o with Some (j, d) => Some ((i + j)%nat, d) | None => None end.

Lemma nth_entries pos i ds fid : 0 <= pos -> StronglySorted Z.lt (map f_id ds) ->
  (forall d, In d ds -> pos <= f_id d) -> pos <= fid ->
  match nth_error (spec_entries pos i ds) (Z.to_nat (fid - pos)) with
  | Some o => o | None => None end = bump i (find_field ds fid).
Proof.
  revert pos i. induction ds as [|d ds IH]; intros pos i Hp Hs Hb Hf.
  - cbn [spec_entries find_field bump]. destruct (Z.to_nat _); reflexivity.
  - pose proof (Hb d (or_introl eq_refl)) as Hd.
    inversion Hs as [|? ? Hs' Hfa]; subst.
    assert (Hb' : forall d', In d' ds -> f_id d + 1 <= f_id d').
    { intros d' Hi. rewrite Forall_forall in Hfa. specialize (Hfa (f_id d')).
      rewrite in_map_iff in Hfa. specialize (Hfa (ex_intro _ d' (conj eq_refl Hi))). lia. }
    cbn [spec_entries find_field]. destruct (fid =? f_id d) eqn:E.
    + assert (fid = f_id d) by lia. subst fid.
      rewrite nth_error_app2 by (rewrite repeat_length; lia).
      rewrite repeat_length, Nat.sub_diag. cbn [nth_error bump]. rewrite Nat.add_0_r.
      reflexivity.
    + destruct (Z_lt_le_dec fid (f_id d)) as [Hl|Hl].
      * rewrite nth_error_app1 by (rewrite repeat_length; lia).
        rewrite find_field_none by (intros d' Hi; specialize (Hb' d' Hi); lia).
        rewrite nth_error_repeat by lia. reflexivity.
      * rewrite nth_error_app2 by (rewrite repeat_length; lia). rewrite repeat_length.
        replace (Z.to_nat (fid - pos) - Z.to_nat (f_id d - pos))%nat
          with (S (Z.to_nat (fid - (f_id d + 1)))) by lia.
        cbn [nth_error]. rewrite (IH (f_id d + 1) (S i)) by (try assumption; lia).
        destruct (find_field ds fid) as [[j d']|]; cbn [bump]; [|reflexivity].
        do 2 f_equal. lia.
Qed.

Definition sorted_ids (ds : list fielddef) : Prop :=
  StronglySorted Z.lt (map f_id ds) /\ forall d, In d ds -> 0 <= f_id d <= 32767.

Lemma spec_is_entries ds : sorted_ids ds -> thrift_spec ds = spec_entries 0 0 ds.
Proof.
  intros [_ H]. destruct ds as [|d ds]; [reflexivity|]. unfold thrift_spec.
  specialize (H d (or_introl eq_refl)). destruct (0 <=? f_id d) eqn:E; [reflexivity|lia].
Qed.

Lemma lookup_find ds fid : sorted_ids ds -> 0 <= fid ->
  match py_index (thrift_spec ds) fid with Some o => o | None => None end
  = find_field ds fid.
Proof.
  intros H Hf. rewrite (spec_is_entries _ H). destruct H as [Hs Hb].
  assert (E : forall o : option (nat * fielddef), bump 0 o = o).
  { intros [[j d]|]; reflexivity. }
  rewrite <- E, <- (nth_entries 0 0 ds fid) by (auto; try lia; intros d Hi; apply Hb; assumption).
  unfold py_index. rewrite Z.sub_0_r.
  destruct ((0 <=? fid) && _) eqn:E1; [reflexivity|].
  destruct ((- _ <=? fid) && _) eqn:E2; [lia|].
  destruct (nth_error _ (Z.to_nat fid)) eqn:E3; [|reflexivity].
  apply nth_error_Some_lt in E3 || (assert (Z.to_nat fid < length (spec_entries 0 0 ds))%nat
    by (apply nth_error_Some; congruence)). lia.
Qed.

(** * Agreement, the depth counter aside *)

Definition shift {X} (k : Z) (s : st X) : st X :=
  mkst (px s) (inp s) (out s) (depth s - k).


Definition agreeQ {X} (q : exn -> Prop) (A : Type) (Q : A -> Prop) (m m' : M X A) : Prop :=
  forall k s, 0 <= k ->
    match m s with
    | (Ok a, t) => Q a /\ m' (shift k s) = (Ok a, shift k t)
    | (Raise e, t) => q e \/ m' (shift k s) = (Raise e, shift k t)
    | (Diverge, _) => True
    end.

Definition anyv {A} (_ : A) : Prop := True.
Definition agree {X} (q : exn -> Prop) (A : Type) (m m' : M X A) : Prop :=
  agreeQ q A anyv m m'.

Section Agree.
Context {X : Type}.
Variable q : exn -> Prop.
Hypothesis Hq : q (EProtocol TP_DEPTH_LIMIT).

Lemma ag_ret A (Q : A -> Prop) a : Q a -> @agreeQ X q A Q (ret a) (ret a).
Proof. intros H k s Hk. cbn. auto. Qed.

Lemma ag_raise A Q e : @agreeQ X q A Q (raise e) (raise e).
Proof. intros k s Hk. cbn. auto. Qed.

Lemma ag_quiet A Q e m : q e -> @agreeQ X q A Q (raise e) m.
Proof. intros H k s Hk. cbn. auto. Qed.

Lemma ag_bind A B Q Q' (m m' : M X A) (f f' : A -> M X B) :
  agreeQ q A Q m m' -> (forall a, Q a -> agreeQ q B Q' (f a) (f' a)) ->
  agreeQ q B Q' (bind m f) (bind m' f').
Proof.
  intros Hm Hf k s Hk. unfold bind. specialize (Hm k s Hk).
  destruct (m s) as [[a|e|] t]; [|destruct Hm as [H|H]; [left; exact H|]|exact I].
  - destruct Hm as [HQ ->]. apply Hf; assumption.
  - right. rewrite H. reflexivity.
Qed.

Lemma ag_seq A B Q Q' (m m' : M X A) (f f' : M X B) :
  agreeQ q A Q m m' -> agreeQ q B Q' f f' -> agreeQ q B Q' (m ;;; f) (m' ;;; f').
Proof. intros. eapply ag_bind; [eassumption|]. auto. Qed.

Lemma ag_weak A (Q : A -> Prop) (m m' : M X A) : agreeQ q A Q m m' -> agree q A m m'.
Proof.
  intros H k s Hk. specialize (H k s Hk). destruct (m s) as [[a|e|] t]; auto.
  destruct H; split; [exact I|assumption].
Qed.

(** The depth frame around one side, or both. *)
Lemma ag_frame A Q (m m' : M X A) : agreeQ q A Q m m' -> agreeQ q A Q (with_depth m) m'.
Proof.
  intros H k s Hk. unfold with_depth, increment_recursion_depth, bind, try_finally.
  destruct (depth s + 1 >? DEFAULT_RECURSION_DEPTH); [left; exact Hq|].
  specialize (H (k + 1) (mkst (px s) (inp s) (out s) (depth s + 1)) ltac:(lia)).
  destruct (m _) as [r t].
  assert (E1 : shift (k + 1) (mkst (px s) (inp s) (out s) (depth s + 1)) = shift k s).
  { unfold shift. cbn. f_equal. lia. }
  assert (E2 : shift (k + 1) t = shift k (decrement_recursion_depth t)).
  { unfold shift, decrement_recursion_depth. cbn. f_equal. lia. }
  rewrite E1, E2 in H. destruct r; exact H.
Qed.

Lemma ag_frames A Q (m m' : M X A) : agreeQ q A Q m m' ->
  agreeQ q A Q (with_depth m) (with_depth m').
Proof.
  intros H k s Hk. unfold with_depth, increment_recursion_depth, bind, try_finally.
  destruct (depth s + 1 >? DEFAULT_RECURSION_DEPTH) eqn:E; [left; exact Hq|].
  cbn [depth shift].
  destruct (depth s - k + 1 >? DEFAULT_RECURSION_DEPTH) eqn:E'; [lia|].
  specialize (H k (mkst (px s) (inp s) (out s) (depth s + 1)) ltac:(lia)).
  destruct (m _) as [r t].
  assert (E1 : shift k (mkst (px s) (inp s) (out s) (depth s + 1))
               = mkst (px (shift k s)) (inp (shift k s)) (out (shift k s)) (depth s - k + 1)).
  { unfold shift. cbn. f_equal. lia. }
  rewrite E1 in H.
  assert (E2 : decrement_recursion_depth (shift k t)
               = shift k (decrement_recursion_depth t)).
  { unfold shift, decrement_recursion_depth. cbn. f_equal. lia. }
  destruct r; [destruct H as [HQ ->]; split; [exact HQ|]|
    destruct H as [H| ->]; [left; exact H|right]|exact I]; rewrite E2; reflexivity.
Qed.

Lemma agree_closed : rclosed (@agree X q).
Proof.
  constructor; unfold agree.
  - intros. apply ag_ret. exact I.
  - intros. apply ag_raise.
  - intros A m k s Hk. exact I.
  - intros. eapply ag_bind; [eassumption|]. auto.
  - intros. apply ag_frames. assumption.
Qed.

Lemma repeatM_ag {A} F : forall F' n (f f' : A -> M X A) acc,
  (F <= F')%nat -> (forall a, agree q A (f a) (f' a)) ->
  agree q A (repeatM F n f acc) (repeatM F' n f' acc).
Proof. exact (repeatM_rel _ agree_closed F). Qed.

Lemma islice_ag {A} F F' n (f f' : A -> M X A) acc : 0 <= n <= MAXSIZE ->
  (F <= F')%nat -> (forall a, agree q A (f a) (f' a)) ->
  agree q A (repeatM F n f acc) (islice F' n f' acc).
Proof.
  intros Hn HF Hf. unfold islice.
  destruct ((n <? 0) || (MAXSIZE <? n)) eqn:E; [lia|]. apply repeatM_ag; assumption.
Qed.

Definition size_ok {A} (size : A -> Z) (a : A) : Prop := 0 <= size a <= MAXSIZE.
Definition id_ok (a : Z * Z) : Prop := fst a = T_STOP \/ 0 <= snd a.

Hypothesis Hq2 : q OUTSIDE.

Lemma size_seen_ag A (size : A -> Z) m m' : agree q A m m' ->
  @agreeQ X q A (size_ok size) (size_seen size m) m'.
Proof.
  intros H k s Hk. specialize (H k s Hk). unfold size_seen, bind.
  destruct (m s) as [[a|e|] t]; [|exact H|exact I].
  destruct H as [_ ->].
  destruct ((0 <=? size a) && _) eqn:E; cbn; [|left; exact Hq2].
  split; [|reflexivity]. unfold size_ok, MAXSIZE. lia.
Qed.

Lemma id_seen_ag m m' : agree q _ m m' -> @agreeQ X q _ id_ok (id_seen m) m'.
Proof.
  intros H k s Hk. specialize (H k s Hk). unfold id_seen, bind.
  destruct (m s) as [[[ty id]|e|] t]; [|exact H|exact I].
  destruct H as [_ ->].
  destruct ((ty =? T_STOP) || _) eqn:E; cbn; [|left; exact Hq2].
  split; [|reflexivity]. unfold id_ok. cbn [fst snd]. lia.
Qed.

Section Reads.
Variable P : proto X.
Hypothesis RP : rreads (agree q) P.
Let Q := checked P.

Lemma fb_ag : agreeQ q _ id_ok (readFieldBegin Q) (readFieldBegin P).
Proof. apply id_seen_ag, RP. Qed.
Lemma mb_ag : agreeQ q _ (size_ok snd) (readMapBegin Q) (readMapBegin P).
Proof. apply size_seen_ag, RP. Qed.
Lemma lb_ag : agreeQ q _ (size_ok snd) (readListBegin Q) (readListBegin P).
Proof. apply size_seen_ag, RP. Qed.
Lemma tb_ag : agreeQ q _ (size_ok snd) (readSetBegin Q) (readSetBegin P).
Proof. apply size_seen_ag, RP. Qed.

Let RC := agree_closed.

Lemma skip_fields_ag F : forall F' (sk sk' : Z -> M X unit), (F <= F')%nat ->
  (forall t, agree q unit (sk t) (sk' t)) ->
  agree q unit (skip_fields Q F sk) (skip_fields P F' sk').
Proof.
  induction F as [|F IH]; intros F' sk sk' HF Hs; [apply (rc_div _ RC)|].
  destruct F' as [|F']; [lia|]. cbn [skip_fields].
  eapply ag_bind; [apply fb_ag|]. intros [t z] _.
  destruct (t =? T_STOP); [apply (rc_ret _ RC)|].
  eapply ag_seq; [apply Hs|]. eapply ag_seq; [apply (rr_fend _ _ RP)|].
  apply IH; [lia|assumption].
Qed.

Lemma skip_ag F F' k : (F <= F')%nat -> forall t,
  agree q unit (skip Q F k t) (skip P F' k t).
Proof.
  intros HF. induction k as [|k IH]; intros t; [apply (rc_raise _ RC)|].
  cbn [skip].
  assert (B : forall A (m : M X A), agree q A m m -> agree q unit (m ;;; ret tt) (m ;;; ret tt)).
  { intros A m Hm. eapply ag_seq; [eassumption|apply (rc_ret _ RC)]. }
  repeat (match goal with |- agree q _ (if ?b then _ else _) _ => destruct b end);
    try (apply B; apply RP).
  - eapply ag_seq; [apply RP|]. eapply ag_seq; [|apply RP].
    apply skip_fields_ag; assumption.
  - eapply ag_bind; [apply mb_ag|]. intros [[kt vt] n] _.
    eapply ag_seq; [|apply RP]. apply repeatM_ag; [assumption|].
    intros _. eapply ag_seq; apply IH.
  - eapply ag_bind; [apply tb_ag|]. intros [et n] _.
    eapply ag_seq; [|apply RP]. apply repeatM_ag; [assumption|].
    intros _. apply IH.
  - eapply ag_bind; [apply lb_ag|]. intros [et n] _.
    eapply ag_seq; [|apply RP]. apply repeatM_ag; [assumption|].
    intros _. apply IH.
  - apply (rc_raise _ RC).
Qed.

Lemma base_ag t : agree q value (read_base Q t) (read_base P t).
Proof.
  destruct t; cbn [read_base];
    try (eapply ag_bind; [apply RP|intros; apply (rc_ret _ RC)]);
    apply (rc_raise _ RC).
Qed.

Lemma ty_ag (dyn : bool) rs rs' F F' t : (F <= F')%nat ->
  (forall n, agree q value (rs n) (rs' n)) ->
  agree q value (read_ty Q rs F t)
    (if dyn then dread_ty P rs' F' t else read_ty P rs' F' t).
Proof.
  intros HF Hrs. destruct dyn.
  - induction t; cbn [read_ty dread_ty]; try apply base_ag.
    + eapply ag_bind; [apply lb_ag|]. intros [et n] Hn.
      eapply ag_bind.
      * apply islice_ag; [exact Hn|assumption|]. intros acc.
        eapply ag_bind; [apply IHt|]. intros; apply (rc_ret _ RC).
      * intros l _. eapply ag_seq; [apply RP|apply (rc_ret _ RC)].
    + eapply ag_bind; [apply tb_ag|]. intros [et n] Hn.
      eapply ag_bind.
      * apply islice_ag; [exact Hn|assumption|]. intros acc.
        eapply ag_bind; [apply IHt|]. intros.
        destruct (hashable t); [apply (rc_ret _ RC)|apply (rc_raise _ RC)].
      * intros l _. eapply ag_seq; [apply RP|apply (rc_ret _ RC)].
    + eapply ag_bind; [apply mb_ag|]. intros [[kt vt] n] Hn.
      eapply ag_bind.
      * apply islice_ag; [exact Hn|assumption|]. intros acc.
        eapply ag_bind; [apply IHt1|]. intros ? _.
        eapply ag_bind; [apply IHt2|]. intros ? _.
        destruct (hashable t1); [apply (rc_ret _ RC)|apply (rc_raise _ RC)].
      * intros l _. eapply ag_seq; [apply RP|apply (rc_ret _ RC)].
    + apply Hrs.
  - induction t; cbn [read_ty]; try apply base_ag.
    + eapply ag_bind; [apply lb_ag|]. intros [et n] Hn.
      eapply ag_bind.
      * apply repeatM_ag; [assumption|]. intros acc.
        eapply ag_bind; [apply IHt|]. intros; apply (rc_ret _ RC).
      * intros l _. eapply ag_seq; [apply RP|apply (rc_ret _ RC)].
    + eapply ag_bind; [apply tb_ag|]. intros [et n] Hn.
      eapply ag_bind.
      * apply repeatM_ag; [assumption|]. intros acc.
        eapply ag_bind; [apply IHt|]. intros.
        destruct (hashable t); [apply (rc_ret _ RC)|apply (rc_raise _ RC)].
      * intros l _. eapply ag_seq; [apply RP|apply (rc_ret _ RC)].
    + eapply ag_bind; [apply mb_ag|]. intros [[kt vt] n] Hn.
      eapply ag_bind.
      * apply repeatM_ag; [assumption|]. intros acc.
        eapply ag_bind; [apply IHt1|]. intros ? _.
        eapply ag_bind; [apply IHt2|]. intros ? _.
        destruct (hashable t1); [apply (rc_ret _ RC)|apply (rc_raise _ RC)].
      * intros l _. eapply ag_seq; [apply RP|apply (rc_ret _ RC)].
    + apply Hrs.
Qed.

Lemma dfields_ag F : forall F' K K' rv rv' ds acc, sorted_ids ds -> (F <= F')%nat ->
  (K <= K')%nat -> (forall t, agree q value (rv t) (rv' t)) ->
  agree q _ (read_fields Q F K rv ds acc)
          (dread_fields P F' K' rv' (thrift_spec ds) acc).
Proof.
  induction F as [|F IH]; intros F' K K' rv rv' ds acc Hds HF HK Hr;
    [apply (rc_div _ RC)|].
  destruct F' as [|F']; [lia|]. cbn [read_fields dread_fields].
  eapply ag_bind; [apply fb_ag|]. intros [t id] Hid.
  assert (S1 : agree q _ (skip Q K SKIP_DEPTH t ;;; readFieldEnd Q ;;;
                    read_fields Q F K rv ds acc)
                   (skip P K' SKIP_DEPTH t ;;; readFieldEnd P ;;;
                    dread_fields P F' K' rv' (thrift_spec ds) acc)).
  { eapply ag_seq; [apply skip_ag; assumption|]. eapply ag_seq; [apply RP|].
    apply IH; [assumption|lia|assumption|assumption]. }
  destruct (t =? T_STOP) eqn:Et; [apply (rc_ret _ RC)|].
  assert (Hid' : 0 <= id) by (destruct Hid as [H|H]; cbn [fst snd] in H; lia).
  rewrite <- (lookup_find ds id Hds Hid').
  destruct (py_index (thrift_spec ds) id) as [[[i d]|]|]; try exact S1.
  destruct (t =? code (f_ty d)); [|exact S1].
  eapply ag_bind; [apply Hr|]. intros v _. eapply ag_seq; [apply RP|].
  apply IH; [assumption|lia|assumption|assumption].
Qed.

Lemma fields_ag F : forall F' K K' rv rv' ds acc, (F <= F')%nat ->
  (K <= K')%nat -> (forall t, agree q value (rv t) (rv' t)) ->
  agree q _ (read_fields Q F K rv ds acc) (read_fields P F' K' rv' ds acc).
Proof.
  induction F as [|F IH]; intros F' K K' rv rv' ds acc HF HK Hr;
    [apply (rc_div _ RC)|].
  destruct F' as [|F']; [lia|]. cbn [read_fields].
  eapply ag_bind; [apply fb_ag|]. intros [t id] Hid.
  assert (S1 : agree q _ (skip Q K SKIP_DEPTH t ;;; readFieldEnd Q ;;;
                    read_fields Q F K rv ds acc)
                   (skip P K' SKIP_DEPTH t ;;; readFieldEnd P ;;;
                    read_fields P F' K' rv' ds acc)).
  { eapply ag_seq; [apply skip_ag; assumption|]. eapply ag_seq; [apply RP|].
    apply IH; [lia|assumption|assumption]. }
  destruct (t =? T_STOP) eqn:Et; [apply (rc_ret _ RC)|].
  destruct (find_field ds id) as [[i d]|]; try exact S1.
  destruct (t =? code (f_ty d)); [|exact S1].
  eapply ag_bind; [apply Hr|]. intros v _. eapply ag_seq; [apply RP|].
  apply IH; [lia|assumption|assumption].
Qed.

Theorem dread_agree env : table_schema env -> forall k k' F F' n, (k <= k')%nat ->
  (F <= F')%nat ->
  agree q value (read_struct Q env k F n) (dread_struct P env k' F' n).
Proof.
  intros He. induction k as [|k IH]; intros k' F F' n Hk HF; [apply (rc_div _ RC)|].
  destruct k' as [|k']; [lia|]. cbn [read_struct dread_struct].
  destruct (nth_error env n) as [ds|] eqn:E; [|apply (rc_raise _ RC)].
  apply ag_frame. eapply ag_seq; [apply RP|].
  eapply ag_bind.
  - apply dfields_ag; [exact (He _ _ E)|assumption|assumption|].
    intros t. apply (ty_ag true); [assumption|]. intros m. apply IH; [lia|assumption].
  - intros acc _. eapply ag_seq; [apply RP|apply (rc_ret _ RC)].
Qed.

Theorem read_agree env : forall k k' F F' n, (k <= k')%nat ->
  (F <= F')%nat ->
  agree q value (read_struct Q env k F n) (read_struct P env k' F' n).
Proof.
  induction k as [|k IH]; intros k' F F' n Hk HF; [apply (rc_div _ RC)|].
  destruct k' as [|k']; [lia|]. cbn [read_struct].
  destruct (nth_error env n) as [ds|] eqn:E; [|apply (rc_raise _ RC)].
  apply ag_frames. eapply ag_seq; [apply RP|].
  eapply ag_bind.
  - apply fields_ag; [assumption|assumption|].
    intros t. apply (ty_ag false); [assumption|]. intros m. apply IH; [lia|assumption].
  - intros acc _. eapply ag_seq; [apply RP|apply (rc_ret _ RC)].
Qed.

(** Whole reads. *)
Theorem deserialize_agree env n x0 buf r : table_schema env ->
  deserialize Q x0 env n buf = r -> r <> Diverge ->
  (forall e, r = Raise e -> ~ q e) ->
  deserialize P x0 env n buf = r /\ ddeserialize P x0 env n buf = r.
Proof.
  intros He E H1 H2. unfold deserialize, ddeserialize in *.
  pose proof (read_agree env DFUEL DFUEL (S (length buf)) (S (length buf)) n
    (le_n _) (le_n _) 0 (mkst x0 buf [] 0) ltac:(lia)) as A.
  pose proof (dread_agree env He DFUEL (DFUEL + length buf) (S (length buf)) (S (length buf)) n
    (Nat.le_add_r _ _) (le_n _) 0 (mkst x0 buf [] 0) ltac:(lia)) as B.
  assert (Z0 : shift 0 (mkst x0 buf [] 0) = mkst x0 buf [] 0) by reflexivity.
  rewrite Z0 in A, B.
  destruct (read_struct Q env DFUEL (S (length buf)) n (mkst x0 buf [] 0)) as [[v|e|] t].
  - destruct A as [_ A], B as [_ B]. rewrite A, B. subst r. split; reflexivity.
  - assert (NQ : ~ q e) by (apply H2; auto).
    destruct A as [A|A]; [contradiction|]. destruct B as [B|B]; [contradiction|].
    rewrite A, B. split; assumption.
  - congruence.
Qed.

End Reads.

(** * Writing *)

Section Writes.
Variable P : proto X.
Hypothesis RP : rwrites (agree q) P.
Variable env : schema.
Hypothesis He : table_schema env.
Let RC := @agree_closed.

Lemma write_base_ag t v : agree q unit (write_base P t v) (write_base P t v).
Proof. apply (write_base_rel _ agree_closed _ RP). Qed.

Definition dw (f : option value) : option (ty -> M X unit) :=
  match f with Some x => Some (fun t => dwrite_value P env t x) | None => None end.

Lemma dwf_none ws k r : dwrite_fields P ws (repeat None k ++ r) = dwrite_fields P ws r.
Proof. induction k; [reflexivity|exact IHk]. Qed.

Lemma dfields_write : forall fs ds pre pos,
  length fs = length ds ->
  Forall (fun f => match f with Some x => forall t, agree q unit (write_value P env t x)
                     (dwrite_value P env t x) | None => True end) fs ->
  agree q unit (write_fields P (write_value P env) fs ds)
    (dwrite_fields P (map dw (pre ++ fs)) (spec_entries pos (length pre) ds)).
Proof.
  induction fs as [|f fs IH]; intros [|d ds] pre pos Hl Hf; try discriminate Hl.
  - apply (rc_ret _ RC).
  - cbn [spec_entries]. rewrite dwf_none. cbn [dwrite_fields].
    rewrite nth_error_map, nth_error_app2 by lia. rewrite Nat.sub_diag.
    cbn [nth_error option_map]. inversion Hf as [|? ? H1 H2]; subst.
    specialize (IH ds (pre ++ [f]) (f_id d + 1) ltac:(cbn in Hl; lia) H2).
    rewrite app_length, Nat.add_1_r, <- app_assoc in IH. cbn [app] in IH.
    destruct f as [x|]; cbn [dw write_fields]; [|exact IH].
    eapply ag_seq; [apply RP|]. eapply ag_seq; [apply H1|]. eapply ag_seq; [apply RP|].
    exact IH.
Qed.

Theorem dwrite_agree : forall v t, complete env v = true ->
  agree q unit (write_value P env t v) (dwrite_value P env t v).
Proof.
  fix IH 1. intros v t.
  assert (L : forall l et, forallb (complete env) l = true ->
    Forall (fun a => agree q unit (write_value P env et a) (dwrite_value P env et a)) l).
  { fix IL 1. intros [|a l] et H; cbn [forallb] in H; constructor.
    - apply IH. apply andb_prop in H as [H _]. exact H.
    - apply IL. apply andb_prop in H as [_ H]. exact H. }
  destruct v as [b|z|d|s|b|b|l|l|l|n fs]; destruct t as
    [| | | | | | | | |et|et|kt vt|m]; intros Hc;
    cbn [write_value dwrite_value]; try apply write_base_ag; cbn [complete] in Hc.
  - eapply ag_seq; [apply RP|]. eapply ag_seq; [|apply RP].
    apply (mapM_rel _ agree_closed), L, Hc.
  - eapply ag_seq; [apply RP|]. eapply ag_seq; [|apply RP].
    apply (mapM_rel _ agree_closed), L, Hc.
  - eapply ag_seq; [apply RP|]. eapply ag_seq; [|apply RP].
    apply (mapM_rel _ agree_closed). clear L. revert l Hc. fix IL 1.
    intros [|[a b] l] H; cbn [forallb] in H; constructor.
    + apply andb_prop in H as [H _]. apply andb_prop in H as [H1 H2].
      eapply ag_seq; apply IH; assumption.
    + apply IL. apply andb_prop in H as [_ H]. exact H.
  - destruct (nth_error env n) as [ds|] eqn:E; [|apply (rc_raise _ RC)].
    apply andb_prop in Hc as [Hc Hf]. apply andb_prop in Hc as [Hl Hv].
    rewrite Hv. apply Nat.eqb_eq in Hl.
    apply ag_frame. eapply ag_seq; [apply RP|].
    eapply ag_seq; [|eapply ag_seq; apply RP].
    rewrite (spec_is_entries _ (He _ _ E)).
    apply (dfields_write fs ds [] 0 Hl).
    clear L Hv Hl. revert fs Hf. fix IL 1. intros [|[x|] fs] H; cbn [forallb] in H; constructor.
    + intros t. apply IH. apply andb_prop in H as [H _]. exact H.
    + apply IL. apply andb_prop in H as [_ H]. exact H.
    + exact I.
    + apply IL. exact H.
Qed.

Theorem serialize_agree n x0 v r : complete env v = true ->
  serialize P x0 env n v = r ->
  (forall e, r = Raise e -> ~ q e) -> r <> Diverge -> dserialize P x0 env n v = r.
Proof.
  intros Hc E H1 H2. unfold serialize, dserialize in *.
  pose proof (dwrite_agree v (TStruct n) Hc 0 (mkst x0 [] [] 0) ltac:(lia)) as A.
  change (shift 0 (mkst x0 [] [] 0)) with (mkst x0 [] [] 0) in A.
  unfold write_struct, dwrite_struct in *.
  destruct (write_value P env (TStruct n) v (mkst x0 [] [] 0)) as [[u|e|] t].
  - destruct A as [_ ->]. exact E.
  - destruct A as [A| ->]; [|exact E]. exfalso. apply (H1 e); auto.
  - congruence.
Qed.

End Writes.
End Agree.
