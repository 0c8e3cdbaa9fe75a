(** C33: the C encoder (Ext.v) against the pure-Python writers. *)
From Coq Require Import ZArith List Bool Lia ZifyBool ZifyNat Sorted.
From Coq Require Import Init.Byte.
From Verif Require Import Base Bytes Utf8 Proto Spec RoundTrip StructFacts
  Binary SpecBinary Compact SpecCompact InstFacts SafeInst
  Dynamic SpecDynamic DynamicRead DynamicDefects Ext ExtFacts Examples.
Import ListNotations.
Open Scope Z_scope.

Lemma fast_is_encode {X} (I : cimpl X) x0 env SL CL n v :
  wf env SL CL (TStruct n) v = true -> fast_serialize I x0 env n v = encode_impl I x0 env n v.
Proof.
  intros H. destruct v as [| | | | | | | | |m fs]; try discriminate H.
  rewrite wf_struct in H. apply andb_prop in H as [Hn H]. apply Nat.eqb_eq in Hn. subst m.
  unfold fast_serialize. destruct (nth_error env n) as [ds|] eqn:E; [|discriminate H].
  rewrite (wf_fields_validate _ _ _ _ _ H). reflexivity.
Qed.

(** * Identical outcomes

    For every schema whose structs list their fields by ascending ids between
    0 and 32767, every well-typed object (of any nesting depth) and either byte
    order of the machine: both writers end in the same way, with the same
    bytes.  The second conjunct says what those are: the published encoding, or
    the depth exception. *)
Theorem C33_binary : forall big cf SL CL env n v, table_schema env ->
  SL <= 2147483647 -> CL <= 2147483647 -> wf env SL CL (TStruct n) v = true ->
  fast_serialize (cbinary big) tt env n v = serialize (binary cf) tt env n v
  /\ fast_serialize (cbinary big) tt env n v
     = if (sdepth v <=? 64)%nat then Ok (sb_value env (TStruct n) v)
       else Raise (EProtocol TP_DEPTH_LIMIT).
Proof.
  intros big cf SL CL env n v He H1 H2 Hwf.
  pose proof (id16_table env He) as Hok.
  rewrite (fast_is_encode _ _ _ _ _ _ _ Hwf).
  destruct (Nat.leb_spec (sdepth v) 64) as [Hd|Hd].
  - assert (E : encode_impl (cbinary big) tt env n v = Ok (sb_value env (TStruct n) v)).
    { unfold encode_impl.
      rewrite (eb_value big env SL CL H1 H2 He v (TStruct n) 0 Hwf ltac:(lia)). reflexivity. }
    rewrite E. split; [|reflexivity]. symmetry. apply (binary_serialize cf SL CL); assumption.
  - rewrite (eb_deep big env SL CL n v) by assumption. split; [|reflexivity].
    symmetry. apply (serialize_deep_b cf SL CL); assumption.
Qed.

Theorem C33_compact : forall big cf SL CL env n v, table_schema env ->
  SL <= 2147483647 -> CL <= 2147483647 -> wf env SL CL (TStruct n) v = true ->
  fast_serialize (ccompact big) [] env n v = serialize (compact cf) c_init env n v
  /\ fast_serialize (ccompact big) [] env n v
     = if (sdepth v <=? 64)%nat then Ok (sc_value env (TStruct n) v)
       else Raise (EProtocol TP_DEPTH_LIMIT).
Proof.
  intros big cf SL CL env n v He H1 H2 Hwf.
  pose proof (id16_table env He) as Hok.
  rewrite (fast_is_encode _ _ _ _ _ _ _ Hwf).
  destruct (Nat.leb_spec (sdepth v) 64) as [Hd|Hd].
  - assert (E : encode_impl (ccompact big) [] env n v = Ok (sc_value env (TStruct n) v)).
    { unfold encode_impl.
      rewrite (ec_value big env SL CL H1 H2 He v (TStruct n) 0 Hwf ltac:(lia)). reflexivity. }
    rewrite E. split; [|reflexivity]. symmetry. apply (compact_serialize cf SL CL); assumption.
  - rewrite (ec_deep big env SL CL n v) by assumption. split; [|reflexivity].
    symmetry. apply (serialize_deep_c cf SL CL); assumption.
Qed.

(** A schema using every type, and an object with every field set. *)
Definition fx_env : schema :=
  [ [ mkfield 0 TBool true None; mkfield 1 TByte false None; mkfield 2 TI16 false None;
      mkfield 17 TI32 false None; mkfield 18 TI64 true None; mkfield 40 TDouble false None;
      mkfield 41 TString false None; mkfield 42 TBinary false None;
      mkfield 43 TUuid false None; mkfield 300 (TList TBool) false None;
      mkfield 301 (TSet TI64) false None; mkfield 302 (TMap TString (TStruct 0)) false None;
      mkfield 32767 (TStruct 1) false None ];
    [ mkfield 1 TString true None; mkfield 2 (TStruct 0) false None ] ].
Definition fx_leaf : value :=
  VStruct 0 [Some (VBool false); None; None; None; Some (VInt 0); None; None; None; None;
             None; None; None; None].
Definition fx_obj : value :=
  VStruct 0 [ Some (VBool true); Some (VInt (-128)); Some (VInt 32767);
    Some (VInt (-2147483648)); Some (VInt 9223372036854775807); Some (VDouble 1);
    Some (VStr [104; 233; 8364; 128512]); Some (VBin [x00; xff]); Some (VUuid ex_uuid);
    Some (VList [VBool true; VBool false]); Some (VSet [VInt (-1); VInt 300]);
    Some (VMap [(VStr [97], fx_leaf)]);
    Some (VStruct 1 [Some (VStr []); Some fx_leaf]) ].

Lemma fx_env_table : table_schema fx_env.
Proof.
  intros [|[|[|n]]] ds E; cbn in E; try discriminate; injection E as <-.
  - split; [repeat constructor|]. intros d Hd. cbn in Hd.
    repeat (destruct Hd as [<-|Hd]; [cbn; lia|]). destruct Hd.
  - split; [repeat constructor|]. intros d Hd. cbn in Hd.
    repeat (destruct Hd as [<-|Hd]; [cbn; lia|]). destruct Hd.
Qed.

Example C33_ex : wf fx_env 100 100 (TStruct 0) fx_obj = true /\ sdepth fx_obj = 3%nat
  /\ wf rec_env 10 10 (TStruct 0) (chain 70) = true /\ sdepth (chain 70) = 71%nat.
Proof. split; [vm_compute; reflexivity|]. split; [reflexivity|]. split; reflexivity. Qed.

(** * Integers outside their type

    Both writers refuse them (with different exceptions). *)
Definition int_range (t : ty) (z : Z) : bool :=
  match t with
  | TByte => (-128 <=? z) && (z <=? 127)
  | TI16 => (-32768 <=? z) && (z <=? 32767)
  | TI32 => (-2147483648 <=? z) && (z <=? 2147483647)
  | TI64 => (-9223372036854775808 <=? z) && (z <=? 9223372036854775807)
  | _ => true
  end.

(** Running a struct with one field whose encoder raises. *)
Lemma c_field_raises {X} (I : cimpl X) x0 t v e : base_ty t = true ->
  (forall s, encode_base I t v s = (Raise e, s)) ->
  (forall m : M X unit, (forall s, m s = (Raise e, s)) ->
     exists s, c_writeField I v (code t) 1 m
       (snd (c_writeStructBegin I (mkst x0 [] [] 1))) = (Raise e, s)) ->
  fst (c_writeStructBegin I (mkst x0 [] [] 1)) = Ok tt ->
  fast_serialize I x0 [[mkfield 1 t false None]] 0 (VStruct 0 [Some v]) = Raise e.
Proof.
  intros Ht Hb Hf Hs. unfold fast_serialize, encode_impl. cbn [nth_error].
  change (validate _ _) with true. cbv iota. cbn [encodeValue nth_error map].
  change (negb _) with false. cbv iota.
  change (thrift_spec _) with [None; Some (O, mkfield 1 t false None)].
  cbn [encode_fields nth_error f_ty f_id].
  assert (E : encodeValue I [[mkfield 1 t false None]] t v = encode_base I t v).
  { destruct t, v; try discriminate Ht; reflexivity. }
  rewrite E. destruct (Hf _ Hb) as (s & Es).
  unfold recursion_guard. cbn [depth px inp out]. change (0 + 1 >? 64) with false. cbv iota.
  change (0 + 1) with 1. unfold try_finally at 1, struct_scope, bind at 1.
  destruct (c_writeStructBegin I (mkst x0 [] [] 1)) as [r s1]. cbn [fst snd] in *. subst r.
  unfold try_finally, bind. rewrite Es. reflexivity.
Qed.

Lemma py_field_raises {X} (P : proto X) x0 t v e s1 : base_ty t = true ->
  (writeStructBegin P ;;; writeFieldBegin P (code t) 1) (mkst x0 [] [] 1) = (Ok tt, s1) ->
  fst (write_base P t v s1) = Raise e ->
  serialize P x0 [[mkfield 1 t false None]] 0 (VStruct 0 [Some v]) = Raise e.
Proof.
  intros Ht Hb Hf. unfold serialize, write_struct. cbn [write_value nth_error].
  change (validate _ _) with true. cbv iota. cbn [write_fields f_ty f_id].
  assert (E : write_value P [[mkfield 1 t false None]] t v = write_base P t v).
  { destruct t, v; try discriminate Ht; reflexivity. }
  rewrite E. unfold with_depth, bind at 1. cbv beta.
  change (increment_recursion_depth (mkst x0 [] [] 0)) with (@Ok unit tt, mkst x0 [] [] 1).
  cbv beta iota. unfold try_finally. unfold bind in *.
  destruct (writeStructBegin P (mkst x0 [] [] 1)) as [[[]| |] s2]; try discriminate Hb.
  rewrite Hb. destruct (write_base P t v s1) as [r s3]. cbn [fst] in Hf. subst r. reflexivity.
Qed.

Theorem C33_out_of_range : forall big cb cc t z, int_range t z = false ->
  let env := [[mkfield 1 t false None]] in
  let v := VStruct 0 [Some (VInt z)] in
  fast_serialize (cbinary big) tt env 0 v = Raise EOverflow
  /\ fast_serialize (ccompact big) [] env 0 v = Raise EOverflow
  /\ serialize (binary cb) tt env 0 v = Raise EStructError
  /\ (exists e, serialize (compact cc) c_init env 0 v = Raise e
        /\ (e = EStructError \/ e = EProtocol TP_INVALID_DATA)).
Proof.
  intros big cb cc t z H env v. subst env v.
  assert (Hc : forall X (I : cimpl X) s, encode_base I t (VInt z) s = (Raise EOverflow, s)).
  { intros X I s. destruct t; try discriminate H; cbn [int_range] in H;
      cbn [encode_base]; unfold parse_pyint, as_int64, bind;
      destruct ((-9223372036854775808 <=? z) && (z <=? 9223372036854775807)) eqn:E;
      try reflexivity; cbn [ret]; unfold ret;
      lazymatch goal with |- context [if ?c then _ else _] =>
        assert (K : c = false) by lia; rewrite K; reflexivity | _ => lia end. }
  assert (Hp : forall n (s : st unit), int_range t z = false ->
    (n = match t with TByte => 1 | TI16 => 2 | TI32 => 4 | _ => 8 end)%nat ->
    fst ((buff <- pack_signed n z ;; twrite buff) s) = Raise EStructError).
  { intros n s _ ->. unfold pack_signed, bind.
    destruct t; try discriminate H; cbn [int_range] in H;
      lazymatch goal with |- context [if ?c then _ else _] =>
        assert (K : c = false) by (cbn; lia); rewrite K; reflexivity end. }
  assert (Hb : base_ty t = true) by (destruct t; try discriminate H; reflexivity).
  split; [|split; [|split]].
  - apply c_field_raises; [exact Hb|apply Hc| |reflexivity].
    intros m Hm. destruct t; try discriminate H; eexists; cbn [c_writeField cbinary];
      unfold eb_writeField, bind; cbn -[Z.mul]; rewrite Hm; reflexivity.
  - apply c_field_raises; [exact Hb|apply Hc| |reflexivity].
    intros m Hm. destruct t; try discriminate H; eexists; cbn [c_writeField ccompact];
      unfold ec_writeField, bind; cbn -[Z.mul]; rewrite Hm; reflexivity.
  - destruct t; try discriminate H.
    all: (eapply py_field_raises; [reflexivity|vm_compute; reflexivity|]).
    all: apply Hp; [exact H|reflexivity].
  - destruct t; try discriminate H.
    1: exists EStructError. 2-4: exists (EProtocol TP_INVALID_DATA).
    all: split; [|first [left; reflexivity|right; reflexivity]].
    all: (eapply py_field_raises; [reflexivity|vm_compute; reflexivity|]).
    all: cbn [write_base compact writeByte writeI16 writeI32 writeI64].
    all: unfold Compact.c_writeByte, Compact.c_writeI16, Compact.c_writeI32,
      Compact.c_writeI64, writer, bind at 1.
    all: match goal with |- context [assert_state ?l ?s] =>
      change (assert_state l s) with (@Ok unit tt, s) end.
    all: cbv beta iota; unfold c_writeByte_, c_writeI16_, makeZigZag, checkIntegerLimits.
    all: cbn [int_range] in H.
    1: unfold pack_signed.
    all: unfold bind.
    all: lazymatch goal with |- context [if ?c then _ else _] =>
        first [ assert (K : c = false) by (cbn; lia) | assert (K : c = true) by (cbn; lia)];
        rewrite K; reflexivity end.
Qed.

Example C33_out_of_range_ex : int_range TI16 32768 = false
  /\ int_range TI64 (-9223372036854775809) = false.
Proof. split; reflexivity. Qed.

(** * Where they differ

    1. Field ids may be negative (fields declared without ids get such ids).
    Then [thrift_spec] is the empty tuple, and the C encoder writes the single
    stop byte: all the fields of the object are dropped, silently. *)
Theorem C33_negative_id : forall big env n d ds fs,
  nth_error env n = Some (d :: ds) -> f_id d < 0 ->
  validate (d :: ds) fs = true ->
  fast_serialize (cbinary big) tt env n (VStruct n fs) = Ok [x00]
  /\ fast_serialize (ccompact big) [] env n (VStruct n fs) = Ok [x00].
Proof.
  intros big env n d ds fs E Hd Hv.
  assert (K : thrift_spec (d :: ds) = []).
  { unfold thrift_spec. destruct (Z.leb_spec 0 (f_id d)); [lia|reflexivity]. }
  unfold fast_serialize, encode_impl. rewrite E, Hv.
  split; cbn [encodeValue]; rewrite Nat.eqb_refl, E, K; reflexivity.
Qed.

Theorem C33_negative_id_refuted : exists env n v, schema_ok env
  /\ wf env 100 100 (TStruct n) v = true
  /\ (forall big cf, fast_serialize (cbinary big) tt env n v
        <> serialize (binary cf) tt env n v)
  /\ (forall big cf, fast_serialize (ccompact big) [] env n v
        <> serialize (compact cf) c_init env n v).
Proof.
  exists [[mkfield (-2) TI32 true None; mkfield (-1) TString false None]], 0%nat,
    (VStruct 0 [Some (VInt 7); Some (VStr [104; 105])]).
  split; [apply schema_okb_ok; reflexivity|]. split; [reflexivity|].
  split; intros big cf.
  - destruct big, cf; vm_compute; discriminate.
  - destruct big, cf; vm_compute; discriminate.
Qed.

(** 2. Required fields are checked on the outermost object only. *)
Theorem C33_nested_required_refuted : exists env n v, table_schema env
  /\ (forall cf, serialize (binary cf) tt env n v = Raise (EProtocol TP_UNKNOWN))
  /\ (forall cf, serialize (compact cf) c_init env n v = Raise (EProtocol TP_UNKNOWN))
  /\ (forall big, exists bs, fast_serialize (cbinary big) tt env n v = Ok bs)
  /\ (forall big, exists bs, fast_serialize (ccompact big) [] env n v = Ok bs).
Proof.
  exists fx_env, 0%nat, (VStruct 0 [Some (VBool true); None; None; None; Some (VInt 1);
    None; None; None; None; None; None; None; Some (VStruct 1 [None; None])]).
  split; [exact fx_env_table|].
  split; [intros []; vm_compute; reflexivity|].
  split; [intros []; vm_compute; reflexivity|].
  split; intros []; eexists; vm_compute; reflexivity.
Qed.

(** 3. A bytes object in a string field, and a str in a binary field, are
    accepted by the C encoder and refused by the Python writers. *)
Theorem C33_bytes_for_string : forall big cb cc,
  let env := [[mkfield 1 TString false None]] in
  let v := VStruct 0 [Some (VBin [x68; x69])] in
  serialize (binary cb) tt env 0 v = Raise ETypeError
  /\ serialize (compact cc) c_init env 0 v = Raise ETypeError
  /\ fast_serialize (cbinary big) tt env 0 v
     = Ok (sb_value env (TStruct 0) (VStruct 0 [Some (VStr [104; 105])]))
  /\ fast_serialize (ccompact big) [] env 0 v
     = Ok (sc_value env (TStruct 0) (VStruct 0 [Some (VStr [104; 105])])).
Proof.
  intros big [] [] env v. subst env v.
  split; [vm_compute; reflexivity|]. split; [vm_compute; reflexivity|].
  destruct big; split; vm_compute; reflexivity.
Qed.

(** 4. A string or container longer than 2147483647: refused with OverflowError
    whatever it contains; the Python compact writer has no such bound. *)
Theorem C33_too_long : forall big env t l,
  2147483647 < Z.of_nat (length l) -> forall s s',
  encodeValue (cbinary big) env (TList t) (VList l) s = (Raise EOverflow, s)
  /\ encodeValue (ccompact big) env (TList t) (VList l) s' = (Raise EOverflow, s').
Proof.
  intros big env t l H s s'. cbn [encodeValue]. unfold check_ssize_t_32.
  assert (K : ((Z.of_nat (length l) <=? 2147483647) && (0 <=? Z.of_nat (length l)))
              = false) by lia.
  rewrite K. split; reflexivity.
Qed.

Example C33_too_long_ex : exists l : list value, 2147483647 < Z.of_nat (length l).
Proof. exists (repeat (VBool true) (Z.to_nat 2147483648)). rewrite repeat_length. lia. Qed.

(** Axioms used. *)
Print Assumptions C33_binary.
Print Assumptions C33_compact.
Print Assumptions C33_out_of_range.
Print Assumptions C33_negative_id.
Print Assumptions C33_negative_id_refuted.
Print Assumptions C33_nested_required_refuted.
Print Assumptions C33_bytes_for_string.
Print Assumptions C33_too_long.
