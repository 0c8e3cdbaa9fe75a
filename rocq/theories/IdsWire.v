(** What ids that do not fit 16 bits do in the protocols. *)
From Coq Require Import ZArith List Bool Lia.
From Coq Require Import ZifyBool ZifyNat ZifyN.
From Verif Require Import Base Bytes BytesFacts Proto Spec Binary Compact RoundTrip Dynamic Ext
  CompactFacts CodecFacts CompactOrderFacts.
Import ListNotations.
Open Scope Z_scope.
Open Scope list_scope.

Lemma binary_fields_fit cf w : forall fs ds k d x s s',
  write_fields (binary cf) w fs ds s = (Ok tt, s') ->
  nth_error fs k = Some (Some x) -> nth_error ds k = Some d ->
  -32768 <= f_id d <= 32767.
Proof.
  induction fs as [|f fs IH]; intros [|d0 ds] k d x s s' H Hf Hd;
    try (destruct k; discriminate).
  destruct k as [|k].
  - cbn [nth_error] in *. injection Hf as ->. injection Hd as ->. cbn [write_fields] in H.
    apply bind_ok in H as (? & s1 & H & _). cbn [writeFieldBegin binary] in H.
    unfold b_writeFieldBegin in H. apply bind_ok in H as (? & s2 & _ & H).
    destruct (Z_le_dec (-32768) (f_id d)) as [H1|H1];
      [destruct (Z_le_dec (f_id d) 32767) as [H2|H2]; [lia|]|];
      exfalso; unfold b_writeI16 in H; rewrite b_write_bad in H;
      try discriminate H; unfold in_signed; cbn; lia.
  - cbn [nth_error] in *. destruct f as [y|]; cbn [write_fields] in H.
    + apply bind_ok in H as (? & s1 & _ & H). apply bind_ok in H as (? & s2 & _ & H).
      apply bind_ok in H as (? & s3 & _ & H). eauto.
    + eauto.
Qed.

Lemma with_depth_ok {X A} (m : M X A) a s s' : with_depth m s = (Ok a, s') ->
  exists s1 s2, m s1 = (Ok a, s2) /\ px s1 = px s.
Proof.
  unfold with_depth. intros H. apply bind_ok in H as (u & s1 & H1 & H).
  unfold try_finally in H. destruct (m s1) as [r s2] eqn:E. injection H as <- _.
  exists s1, s2. split; [exact E|]. unfold increment_recursion_depth in H1.
  destruct (_ >? _); [discriminate H1|]. injection H1 as _ <-. reflexivity.
Qed.

(** Compact, the first field written. *)
Lemma compact_first_fit cf w : forall fs ds k d x s s',
  write_fields (compact cf) w fs ds s = (Ok tt, s') -> last_fid (px s) = 0 ->
  (forall j, (j < k)%nat -> nth_error fs j = Some None) ->
  nth_error fs k = Some (Some x) -> nth_error ds k = Some d ->
  f_ty d <> TBool -> -32768 <= f_id d <= 32767.
Proof.
  induction fs as [|f fs IH]; intros [|d0 ds] k d x s s' H Hs Hb Hf Hd Ht;
    try (destruct k; discriminate).
  destruct k as [|k].
  - cbn [nth_error] in *. injection Hf as ->. injection Hd as ->. cbn [write_fields] in H.
    apply bind_ok in H as (? & s1 & H & _). cbn [writeFieldBegin compact] in H.
    unfold c_writeFieldBegin in H. apply bind_ok in H as (? & s2 & H0 & H).
    assert (E : (code (f_ty d) =? T_BOOL) = false)
      by (destruct (f_ty d); try reflexivity; congruence).
    rewrite E in H. apply bind_ok in H as (? & s3 & H3 & H).
    apply bind_ok in H as (ct & s4 & H4 & H).
    assert (L : last_fid (px s4) = 0).
    { unfold assert_state in H0. apply bind_ok in H0 as (? & s5 & H5 & H0).
      injection H5 as <- <-. unfold assert_ in H0.
      destruct (existsb _ _); [|discriminate H0]. injection H0 as _ <-.
      injection H3 as _ <-. unfold lookup_ctype in H4.
      destruct (CTYPES (code (f_ty d))); [|discriminate H4]. injection H4 as _ <-. exact Hs. }
    unfold c_writeFieldHeader in H. apply bind_ok in H as (? & s5 & H5 & H).
    injection H5 as <- <-. apply bind_ok in H as (? & s6 & H6 & H).
    rewrite L, Z.sub_0_r in H6.
    destruct (_ && _) eqn:Ed; [lia|]. apply bind_ok in H6 as (? & s7 & _ & H6).
    destruct (Z_le_dec (-32768) (f_id d)) as [H1|H1];
      [destruct (Z_le_dec (f_id d) 32767) as [H2|H2]; [lia|]|];
      exfalso; unfold c_writeI16_ in H6; rewrite c_write_bad in H6;
      try discriminate H6; unfold in_bits; cbn; lia.
  - cbn [nth_error] in *. pose proof (Hb O ltac:(lia)) as H0. injection H0 as ->.
    cbn [write_fields] in H. apply (IH ds k d x s s'); auto.
    intros j Hj. exact (Hb (S j) ltac:(lia)).
Qed.

(** The accelerated encoder. *)
Definition same16 (d d' : fielddef) : Prop :=
  f_ty d = f_ty d' /\ f_req d = f_req d' /\ (f_id d' - f_id d) mod 65536 = 0.
Definition first_not_neg (ds : list fielddef) : Prop :=
  match ds with [] => True | d :: _ => 0 <= f_id d end.
Definition same16_env (env env' : schema) : Prop :=
  Forall2 (fun ds ds' => Forall2 same16 ds ds' /\ first_not_neg ds /\ first_not_neg ds') env env'.

Lemma bind_eq {S A B} (m m' : SM S A) (k k' : A -> SM S B) s :
  (forall s, m s = m' s) -> (forall a s, k a s = k' a s) -> bind m k s = bind m' k' s.
Proof. intros H1 H2. unfold bind. rewrite H1. destruct (m' s) as [[a|e|] s1]; auto. Qed.

Lemma mapM_eq {S A} (f g : A -> SM S unit) l : Forall (fun a => forall s, f a s = g a s) l ->
  forall s, mapM_ f l s = mapM_ g l s.
Proof.
  induction 1 as [|a l Ha _ IH]; intros s; cbn [mapM_]; [reflexivity|].
  apply bind_eq; [exact Ha|intros _ s1; apply IH].
Qed.

Lemma none_skip {X} (I : cimpl X) k ws r s :
  encode_fields I ws (repeat None k ++ r) s = encode_fields I ws r s.
Proof. induction k; [reflexivity|]. cbn [repeat app encode_fields]. exact IHk. Qed.

Section Acc.
Variable big : bool.
Notation B := (cbinary big).

Definition slots_eq (a b : option (value * (ty -> M unit unit))) : Prop :=
  match a, b with
  | None, None => True
  | Some (v, f), Some (v', g) => v = v' /\ forall t s, f t s = g t s
  | _, _ => False
  end.

Lemma entries_eq ws ws' : Forall2 slots_eq ws ws' -> forall ds ds', Forall2 same16 ds ds' ->
  forall p p' i s, encode_fields B ws (spec_entries p i ds) s
    = encode_fields B ws' (spec_entries p' i ds') s.
Proof.
  intros Hw ds ds' H. induction H as [|d d' ds ds' (H1 & _ & H2) _ IH]; intros p p' i s;
    [reflexivity|]. cbn [spec_entries]. rewrite !none_skip. cbn [encode_fields].
  assert (N : match nth_error ws i, nth_error ws' i with
              | None, None => True | Some a, Some b => slots_eq a b | _, _ => False end).
  { clear -Hw. revert i. induction Hw; intros [|i]; cbn [nth_error]; auto; apply IHHw. }
  destruct (nth_error ws i) as [[[v f]|]|], (nth_error ws' i) as [[[v' g]|]|];
    cbn [slots_eq] in N; try contradiction; try reflexivity; [|apply IH].
  destruct N as [-> N]. apply bind_eq; [|intros _ s1; apply IH].
  intros s1. cbn [c_writeField cbinary]. unfold eb_writeField. rewrite H1.
  assert (E : sN 2 (f_id d) = sN 2 (f_id d')).
  { unfold sN, uN. f_equal. change (2 ^ (8 * Z.of_nat 2)) with 65536. 
    apply Z.mod_divide in H2; [|lia]. destruct H2 as [q H2].
    replace (f_id d') with (f_id d + q * 65536) by lia. rewrite Z_mod_plus_full. reflexivity. }
  rewrite E. apply bind_eq; [reflexivity|]. intros _ s2. apply bind_eq; [reflexivity|].
  intros _ s3. apply N.
Qed.

Lemma table_entries ds : first_not_neg ds -> thrift_spec ds = spec_entries 0 0 ds.
Proof.
  destruct ds as [|d ds]; [reflexivity|]. cbn [first_not_neg thrift_spec]. intros H.
  destruct (Z.leb_spec 0 (f_id d)); [reflexivity|lia].
Qed.

Lemma encode_eq env env' : same16_env env env' -> forall v t s,
  encodeValue B env t v s = encodeValue B env' t v s.
Proof.
  intros He v. induction v using value_rect'; intros t sx; try (destruct t; reflexivity).
  - destruct t; try reflexivity. cbn [encodeValue].
    apply bind_eq; [reflexivity|]. intros _ s1. apply bind_eq; [reflexivity|]. intros _ s2.
    apply mapM_eq. eapply Forall_impl; [|exact H]. intros a Ha. apply Ha.
  - destruct t; try reflexivity. cbn [encodeValue].
    apply bind_eq; [reflexivity|]. intros _ s1. apply bind_eq; [reflexivity|]. intros _ s2.
    apply mapM_eq. eapply Forall_impl; [|exact H]. intros a Ha. apply Ha.
  - destruct t; try reflexivity. cbn [encodeValue].
    apply bind_eq; [reflexivity|]. intros _ s1. apply bind_eq; [reflexivity|]. intros _ s2.
    apply mapM_eq. eapply Forall_impl; [|exact H]. intros [k x] [Hk Hx] s3. cbn [fst snd] in *.
    apply bind_eq; [apply Hk|]. intros _ s4. apply Hx.
  - destruct t as [| | | | | | | | | | | |m]; try reflexivity. cbn [encodeValue].
    destruct (negb (m =? n)%nat); [reflexivity|].
    assert (N : match nth_error env m, nth_error env' m with
      | None, None => True
      | Some ds, Some ds' => Forall2 same16 ds ds' /\ first_not_neg ds /\ first_not_neg ds'
      | _, _ => False end).
    { clear -He. revert m. unfold same16_env in He. induction He; intros [|m]; cbn [nth_error]; auto; apply IHHe. }
    destruct (nth_error env m) as [ds|], (nth_error env' m) as [ds'|]; try contradiction; [|reflexivity].
    destruct N as (N1 & N2 & N3). rewrite !table_entries by assumption.
    unfold recursion_guard. destruct (depth sx + 1 >? 64); [reflexivity|]. unfold try_finally at 1 2.
    match goal with |- (let (_, _) := ?a in _) = (let (_, _) := ?b in _) =>
      assert (X : a = b); [|rewrite X; reflexivity] end.
    unfold struct_scope. apply bind_eq; [reflexivity|]. intros _ s1. unfold try_finally.
    match goal with |- (let (_, _) := ?a in _) = (let (_, _) := ?b in _) =>
      assert (X : a = b); [|rewrite X; reflexivity] end.
    apply bind_eq; [|reflexivity]. intros s2. apply entries_eq; [|exact N1].
    clear -H. induction H as [|f fs Hf _ IH]; cbn [map]; constructor; [|exact IH].
    destruct f as [x|]; cbn [slots_eq]; [|exact I]. split; [reflexivity|]. exact Hf.
Qed.
End Acc.
