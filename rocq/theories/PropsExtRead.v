(** C54, C55: the C decoder of the accelerated protocols (ExtRead.v). *)
From Coq Require Import ZArith List Bool Lia ZifyBool ZifyNat Sorted.
From Coq Require Import Init.Byte.
From Verif Require Import Base Bytes Utf8 Proto Spec RoundTrip StructFacts PostFacts
  Binary SpecBinary BinaryLaws Compact SpecCompact CompactLaws InstFacts SafeInst
  Dynamic SpecDynamic DynamicRead DynamicDefects Ext ExtFacts ExtRead SpecExt
  ExtReadGen ExtReadBinary ExtReadCompact ExtReadFacts ExtReadSafe ExtReadSafeInst
  ExtReadDepth Examples PropsExt.
Import ListNotations.
Open Scope Z_scope.

(** * C54: the decoder reads what was written

    Writer and reader may have different versions of the schema.  [proj] is
    what a reader of [envR] is to see of an object of [envW] (Spec.v, as in
    C09); every field the reader does not know must lie, with the structs
    around it, within 64 levels ([drop_within]). *)
Theorem C54_binary_schema_evolution :
  forall big sl cl SL CL envW envR R n m v tail, x_limits sl cl SL CL ->
  schema_ok envW -> table_schema envR -> compat_env envW envR R -> R n m = true ->
  wf envW SL CL (TStruct n) v = true -> (sdepth v <= 64)%nat ->
  drop_within envW envR 64 (TStruct n) (TStruct m) v = true ->
  fast_deserialize (dbinary big sl cl) tt envR m (sb_value envW (TStruct n) v ++ tail)
  = Ok (proj envW envR (TStruct n) (TStruct m) v, tail).
Proof. exact fast_binary_read. Qed.

Theorem C54_compact_schema_evolution :
  forall big sl cl SL CL envW envR R n m v tail, x_limits sl cl SL CL ->
  schema_ok envW -> table_schema envR -> compat_env envW envR R -> R n m = true ->
  wf envW SL CL (TStruct n) v = true -> (sdepth v <= 64)%nat ->
  drop_within envW envR 64 (TStruct n) (TStruct m) v = true ->
  fast_deserialize (dcompact big sl cl) crd_init envR m
    (sc_value envW (TStruct n) v ++ tail)
  = Ok (proj envW envR (TStruct n) (TStruct m) v, tail).
Proof. exact fast_compact_read. Qed.

(** [drop_within] holds of every object nested at most 64 deep in all. *)
Theorem C54_shallow_can_be_dropped : forall envW envR v n m, (vdepth v <= 64)%nat ->
  drop_within envW envR 64 (TStruct n) (TStruct m) v = true.
Proof. intros. apply drop_within_depth. assumption. Qed.

(** A reader two versions behind [fx_env] (PropsExt.v). *)
Definition fx_old : schema :=
  [ [ mkfield 0 TBool true None; mkfield 17 TI32 false None; mkfield 18 TI32 false None;
      mkfield 41 TString false None; mkfield 302 (TMap TString (TStruct 0)) false None;
      mkfield 400 TI64 false (Some (VInt 5)); mkfield 32767 (TStruct 1) false None ];
    [ mkfield 1 TString true None ] ].
Definition fx_rel (n m : nat) : bool := (n =? m)%nat && (n <? 2)%nat.
Lemma fx_old_table : table_schema fx_old.
Proof.
  intros [|[|[|n]]] ds E; cbn in E; try discriminate; injection E as <-.
  - split; [repeat constructor|]. intros d Hd. cbn in Hd.
    repeat (destruct Hd as [<-|Hd]; [cbn; lia|]). destruct Hd.
  - split; [repeat constructor|]. intros d Hd. cbn in Hd.
    repeat (destruct Hd as [<-|Hd]; [cbn; lia|]). destruct Hd.
Qed.
Lemma fx_compat : compat_env fx_env fx_old fx_rel.
Proof.
  intros n m H. unfold fx_rel in H. apply andb_prop in H as [E H].
  apply Nat.eqb_eq in E. subst m. apply Nat.ltb_lt in H.
  destruct n as [|[|n]]; [| |lia]; eexists _, _;
    (split; [reflexivity|]); (split; [reflexivity|]);
    intros a b Ha Hb; cbn [In] in Ha, Hb;
    repeat (destruct Ha as [<-|Ha]; [repeat (destruct Hb as [<-|Hb];
      [cbn; intros; try reflexivity; try discriminate|]); contradiction|]);
    contradiction.
Qed.

Example C54_ex : schema_ok fx_env /\ table_schema fx_old /\ compat_env fx_env fx_old fx_rel
  /\ fx_rel 0 0 = true /\ x_limits (Some 100) (Some 100) 100 100
  /\ wf fx_env 100 100 (TStruct 0) fx_obj = true /\ (vdepth fx_obj <= 64)%nat
  /\ fast_deserialize (dbinary false (Some 100) (Some 100)) tt fx_old 0
       (sb_value fx_env (TStruct 0) fx_obj ++ [xff])
     = Ok (VStruct 0 [Some (VBool true); Some (VInt (-2147483648)); None;
             Some (VStr [104; 233; 8364; 128512]);
             Some (VMap [(VStr [97],
               VStruct 0 [Some (VBool false); None; None; None; None; Some (VInt 5); None])]);
             Some (VInt 5); Some (VStruct 1 [Some (VStr [])])], [xff])
  /\ proj fx_env fx_old (TStruct 0) (TStruct 0) fx_obj
     = VStruct 0 [Some (VBool true); Some (VInt (-2147483648)); None;
             Some (VStr [104; 233; 8364; 128512]);
             Some (VMap [(VStr [97],
               VStruct 0 [Some (VBool false); None; None; None; None; Some (VInt 5); None])]);
             Some (VInt 5); Some (VStruct 1 [Some (VStr [])])].
Proof.
  split; [exact (id16_table _ fx_env_table)|]. split; [exact fx_old_table|].
  split; [exact fx_compat|]. split; [reflexivity|]. split; [repeat split; cbn; lia|].
  split; [vm_compute; reflexivity|]. split; [vm_compute; lia|].
  split; vm_compute; reflexivity.
Qed.

(** ** The accelerated writer and reader together *)
Theorem C54_binary_round_trip : forall bigW bigR sl cl SL CL env n v tail,
  x_limits sl cl SL CL -> table_schema env -> schema_closed env = true ->
  wf env SL CL (TStruct n) v = true -> (sdepth v <= 64)%nat ->
  exists bs, fast_serialize (cbinary bigW) tt env n v = Ok bs
    /\ fast_deserialize (dbinary bigR sl cl) tt env n (bs ++ tail)
       = Ok (with_defaults env (TStruct n) v, tail).
Proof.
  intros bigW bigR sl cl SL CL env n v tail Hl He Hc Hwf Hd.
  pose proof (id16_table env He) as Hok. destruct Hl as (H1 & H2 & H3 & H4).
  exists (sb_value env (TStruct n) v). split.
  - destruct (C33_binary bigW bdefault SL CL env n v He H1 H2 Hwf) as [_ E].
    rewrite E. destruct (Nat.leb_spec (sdepth v) 64); [reflexivity|lia].
  - rewrite (fast_binary_read bigR sl cl SL CL env env (same env) n n v tail);
      try assumption.
    + erewrite proj_with_defaults by eassumption. reflexivity.
    + repeat split; assumption.
    + eapply compat_env_same; eassumption.
    + apply same_in. eapply wf_struct_in; eassumption.
    + eapply drop_within_same; eassumption.
Qed.

Theorem C54_compact_round_trip : forall bigW bigR sl cl SL CL env n v tail,
  x_limits sl cl SL CL -> table_schema env -> schema_closed env = true ->
  wf env SL CL (TStruct n) v = true -> (sdepth v <= 64)%nat ->
  exists bs, fast_serialize (ccompact bigW) [] env n v = Ok bs
    /\ fast_deserialize (dcompact bigR sl cl) crd_init env n (bs ++ tail)
       = Ok (with_defaults env (TStruct n) v, tail).
Proof.
  intros bigW bigR sl cl SL CL env n v tail Hl He Hc Hwf Hd.
  pose proof (id16_table env He) as Hok. destruct Hl as (H1 & H2 & H3 & H4).
  exists (sc_value env (TStruct n) v). split.
  - destruct (C33_compact bigW cdefault SL CL env n v He H1 H2 Hwf) as [_ E].
    rewrite E. destruct (Nat.leb_spec (sdepth v) 64); [reflexivity|lia].
  - rewrite (fast_compact_read bigR sl cl SL CL env env (same env) n n v tail);
      try assumption.
    + erewrite proj_with_defaults by eassumption. reflexivity.
    + repeat split; assumption.
    + eapply compat_env_same; eassumption.
    + apply same_in. eapply wf_struct_in; eassumption.
    + eapply drop_within_same; eassumption.
Qed.

(** ... the identity, when no field with a default is unset. *)
Theorem C54_round_trip_equal : forall bigW bigR sl cl SL CL env n v tail,
  x_limits sl cl SL CL -> table_schema env -> schema_closed env = true ->
  wf env SL CL (TStruct n) v = true -> (sdepth v <= 64)%nat ->
  no_missing_default env (TStruct n) v = true ->
  (exists bs, fast_serialize (cbinary bigW) tt env n v = Ok bs
    /\ fast_deserialize (dbinary bigR sl cl) tt env n (bs ++ tail) = Ok (v, tail))
  /\ (exists bs, fast_serialize (ccompact bigW) [] env n v = Ok bs
    /\ fast_deserialize (dcompact bigR sl cl) crd_init env n (bs ++ tail) = Ok (v, tail)).
Proof.
  intros bigW bigR sl cl SL CL env n v tail Hl He Hc Hwf Hd Hn.
  pose proof (C54_binary_round_trip bigW bigR sl cl SL CL env n v tail Hl He Hc Hwf Hd) as A.
  pose proof (C54_compact_round_trip bigW bigR sl cl SL CL env n v tail Hl He Hc Hwf Hd) as B.
  rewrite (with_defaults_id env v (TStruct n) SL CL Hwf Hn) in A, B. split; assumption.
Qed.

Example C54_round_trip_ex : schema_closed fx_env = true
  /\ no_missing_default fx_env (TStruct 0) fx_obj = true
  /\ fast_deserialize (dcompact true None None) crd_init fx_env 0
       (sc_value fx_env (TStruct 0) fx_obj ++ [x07]) = Ok (fx_obj, [x07])
  /\ fast_deserialize (dbinary true None None) tt fx_env 0
       (sb_value fx_env (TStruct 0) fx_obj) = Ok (fx_obj, []).
Proof. repeat split; vm_compute; reflexivity. Qed.

(** ** The same result as the pure-Python reader

    on the encoding of every object whose unknown fields both can skip. *)
Theorem C54_binary_agrees : forall big cf sl cl SL CL envW envR R n m v tail,
  x_limits sl cl SL CL -> b_limits cf SL CL ->
  schema_ok envW -> table_schema envR -> compat_env envW envR R -> R n m = true ->
  wf envW SL CL (TStruct n) v = true -> (sdepth v <= 64)%nat ->
  drop_ok envW envR utf8_valid SKIP_DEPTH (TStruct n) (TStruct m) v = true ->
  drop_within envW envR 64 (TStruct n) (TStruct m) v = true ->
  fast_deserialize (dbinary big sl cl) tt envR m (sb_value envW (TStruct n) v ++ tail)
  = deserialize (binary cf) tt envR m (sb_value envW (TStruct n) v ++ tail).
Proof.
  intros big cf sl cl SL CL envW envR R n m v tail H1 H2 H3 H4 H5 H6 H7 H8 H9 H10.
  rewrite (fast_binary_read big sl cl SL CL envW envR R) by assumption. symmetry.
  apply (binary_deserialize cf SL CL envW envR R); try assumption. apply id16_table, H4.
Qed.
Theorem C54_compact_agrees : forall big cf sl cl SL CL envW envR R n m v tail,
  x_limits sl cl SL CL -> c_limits cf SL CL ->
  schema_ok envW -> table_schema envR -> compat_env envW envR R -> R n m = true ->
  wf envW SL CL (TStruct n) v = true -> (sdepth v <= 64)%nat ->
  drop_ok envW envR utf8_valid SKIP_DEPTH (TStruct n) (TStruct m) v = true ->
  drop_within envW envR 64 (TStruct n) (TStruct m) v = true ->
  fast_deserialize (dcompact big sl cl) crd_init envR m
    (sc_value envW (TStruct n) v ++ tail)
  = deserialize (compact cf) c_init envR m (sc_value envW (TStruct n) v ++ tail).
Proof.
  intros big cf sl cl SL CL envW envR R n m v tail H1 H2 H3 H4 H5 H6 H7 H8 H9 H10.
  rewrite (fast_compact_read big sl cl SL CL envW envR R) by assumption. symmetry.
  apply (compact_deserialize cf SL CL envW envR R); try assumption. apply id16_table, H4.
Qed.

(** ** Where the conditions matter

    1. An unknown field nested deeply inside structs: the Python reader skips
    it, the C decoder, which counts skipped levels together with the structs
    around them, refuses the whole message. *)
Fixpoint lists (n : nat) (t : ty) : ty := match n with O => t | S k => TList (lists k t) end.
Fixpoint nested (n : nat) (v : value) : value :=
  match n with O => v | S k => VList [nested k v] end.
Definition deep_env : schema :=
  [[mkfield 1 (TStruct 0) false None; mkfield 2 (lists 30 TI32) false None]].
Fixpoint deep_chain (n : nat) : value :=
  match n with
  | O => VStruct 0 [None; Some (nested 30 (VInt 1))]
  | S k => VStruct 0 [Some (deep_chain k); None]
  end.
Theorem C54_deep_unknown_field_refuted : exists envW envR v,
  table_schema envW /\ table_schema envR
  /\ wf envW 100 100 (TStruct 0) v = true /\ (sdepth v <= 64)%nat
  /\ (forall cf, cf = bdefault ->
      deserialize (binary cf) tt envR 0 (sb_value envW (TStruct 0) v) = Ok (chain 39, []))
  /\ (forall cf, cf = cdefault ->
      deserialize (compact cf) c_init envR 0 (sc_value envW (TStruct 0) v)
      = Ok (chain 39, []))
  /\ (forall big, fast_deserialize (dbinary big None None) tt envR 0
        (sb_value envW (TStruct 0) v) = Raise (EProtocol TP_DEPTH_LIMIT))
  /\ (forall big, fast_deserialize (dcompact big None None) crd_init envR 0
        (sc_value envW (TStruct 0) v) = Raise (EProtocol TP_DEPTH_LIMIT)).
Proof.
  exists deep_env, rec_env, (deep_chain 39).
  split.
  { intros [|[|n]] ds E; cbn in E; try discriminate; injection E as <-.
    split; [repeat constructor|]. intros d Hd. cbn in Hd.
    repeat (destruct Hd as [<-|Hd]; [cbn; lia|]). destruct Hd. }
  split; [exact rec_env_table|].
  split; [vm_compute; reflexivity|]. split; [vm_compute; lia|].
  split; [intros cf ->; vm_compute; reflexivity|].
  split; [intros cf ->; vm_compute; reflexivity|].
  split; intros []; vm_compute; reflexivity.
Qed.

(** 2. An unknown binary field that is not UTF-8: the other way round. *)
Theorem C54_unknown_binary_refuted : exists envW envR v w,
  table_schema envW /\ table_schema envR /\ wf envW 100 100 (TStruct 0) v = true
  /\ deserialize (binary bdefault) tt envR 0 (sb_value envW (TStruct 0) v)
     = Raise EUnicodeDecode
  /\ deserialize (compact cdefault) c_init envR 0 (sc_value envW (TStruct 0) v)
     = Raise EUnicodeDecode
  /\ (forall big, fast_deserialize (dbinary big None None) tt envR 0
        (sb_value envW (TStruct 0) v) = Ok (w, []))
  /\ (forall big, fast_deserialize (dcompact big None None) crd_init envR 0
        (sc_value envW (TStruct 0) v) = Ok (w, [])).
Proof.
  exists [[mkfield 1 TI32 false None; mkfield 2 TBinary false None]],
    [[mkfield 1 TI32 false None]],
    (VStruct 0 [Some (VInt 7); Some (VBin [xff; xfe])]), (VStruct 0 [Some (VInt 7)]).
  do 2 (split; [intros [|[|n]] ds E; cbn in E; try discriminate; injection E as <-;
    (split; [repeat constructor|]); intros d Hd; cbn in Hd;
    repeat (destruct Hd as [<-|Hd]; [cbn; lia|]); destruct Hd|]).
  split; [reflexivity|]. split; [vm_compute; reflexivity|]. split; [vm_compute; reflexivity|].
  split; intros []; vm_compute; reflexivity.
Qed.

(** 3. A reader with a negative field id has an empty [thrift_spec]: every
    field is skipped, and the result is a new object. *)
Theorem C54_negative_id_refuted : exists env n v,
  schema_ok env /\ schema_closed env = true /\ wf env 100 100 (TStruct n) v = true
  /\ no_missing_default env (TStruct n) v = true
  /\ (forall big, fast_deserialize (dbinary big None None) tt env n
        (sb_value env (TStruct n) v) = Ok (VStruct n [None; None], []))
  /\ (forall big, fast_deserialize (dcompact big None None) crd_init env n
        (sc_value env (TStruct n) v) = Ok (VStruct n [None; None], []))
  /\ v <> VStruct n [None; None].
Proof.
  exists [[mkfield (-2) TI32 false None; mkfield (-1) TString false None]], 0%nat,
    (VStruct 0 [Some (VInt 7); Some (VStr [104; 105])]).
  split; [apply schema_okb_ok; reflexivity|]. repeat (split; [reflexivity|]).
  split; [intros []; vm_compute; reflexivity|].
  split; [intros []; vm_compute; reflexivity|]. discriminate.
Qed.

(** * C55: arbitrary input

    For every schema, every input and all limits, the decoders return or raise
    one of five exceptions; what they return comes with a proper suffix of the
    input.  The binary decoder needs a schema without uuid fields. *)
Theorem C55_compact_total : forall big sl cl env n buf,
  match fast_deserialize (dcompact big sl cl) crd_init env n buf with
  | Ok (_, rest) => exists pre, buf = pre ++ rest /\ pre <> []
  | Raise e => e = EEOFError \/ e = EValueError \/ e = ETypeError \/ e = EOverflow
               \/ e = EProtocol TP_DEPTH_LIMIT
  | Diverge => False
  end.
Proof.
  intros. apply (compact_fast_safe big sl cl x_exn). auto.
Qed.

Fixpoint has_uuid (t : ty) : bool :=
  match t with
  | TUuid => true
  | TList e | TSet e => has_uuid e
  | TMap k v => has_uuid k || has_uuid v
  | _ => false
  end.
Lemma no_uuid_made_of t : has_uuid t = false ->
  made_of (fun t => if false then true else negb (code t =? T_UUID)) t = true.
Proof.
  induction t; cbn [has_uuid made_of]; intros H; try reflexivity; try discriminate; auto.
  apply orb_false_elim in H as [H1 H2]. rewrite IHt1, IHt2; auto.
Qed.

Theorem C55_binary_total : forall big sl cl env n buf,
  (forall ds d, In ds env -> In d ds -> has_uuid (f_ty d) = false) ->
  match fast_deserialize (dbinary big sl cl) tt env n buf with
  | Ok (_, rest) => exists pre, buf = pre ++ rest /\ pre <> []
  | Raise e => e = EEOFError \/ e = EValueError \/ e = ETypeError \/ e = EOverflow
               \/ e = EProtocol TP_DEPTH_LIMIT
  | Diverge => False
  end.
Proof.
  intros big sl cl env n buf H.
  apply (binary_fast_safe big sl cl x_exn (fun e h => h) false); [discriminate|].
  unfold env_made_of. apply forallb_forall. intros ds Hds. apply forallb_forall.
  intros d Hd. apply no_uuid_made_of, (H ds d Hds Hd).
Qed.

(** With uuid fields it still terminates, but reads outside its input: *)
Theorem C55_binary_terminates : forall big sl cl env n buf,
  fast_deserialize (dbinary big sl cl) tt env n buf <> Diverge.
Proof.
  intros big sl cl env n buf E.
  pose proof (binary_fast_safe big sl cl (fun _ => True) (fun _ _ => I) true env n buf
    (fun _ => I)) as H.
  rewrite E in H. apply H. unfold env_made_of. apply forallb_forall. intros ds _.
  apply forallb_forall. intros d _. generalize (f_ty d). induction t; cbn; auto.
  rewrite IHt1, IHt2. reflexivity.
Qed.
Theorem C55_binary_overread_refuted : exists env buf,
  forall big sl cl, fast_deserialize (dbinary big sl cl) tt env 0 buf = Raise OVERREAD.
Proof.
  exists [[mkfield 1 TUuid false None]], [x10; x00; x01; xaa; xbb].
  intros [] sl cl; vm_compute; reflexivity.
Qed.

Example C55_total_ex : (forall ds d, In ds rec_env -> In d ds -> has_uuid (f_ty d) = false)
  /\ fast_deserialize (dbinary false None None) tt fx_env 0 [x0f; x01; x2c; x02; x7f; xff; xff; xff]
     = Raise EEOFError
  /\ fast_deserialize (dbinary false None (Some 5)) tt fx_env 0
       [x0f; x01; x2c; x02; x00; x00; x00; x06] = Raise EOverflow
  /\ fast_deserialize (dcompact false None None) crd_init fx_env 0 [x0f] = Raise ETypeError.
Proof.
  split. { intros ds d [<-|[]] [<-|[]]. reflexivity. }
  repeat split; vm_compute; reflexivity.
Qed.

(** ** What is returned has the declared types

    Integers are in the range of their type, strings consist of Unicode scalar
    values, a string has at most the configured number of code points, binary
    data of bytes, and containers of elements.  Fields not received have their
    default. *)
Definition within_type (SL : Z) (t : ty) (v : value) : Prop :=
  match t, v with
  | TString, VStr s => Forall (fun c => scalar c = true) s /\ Z.of_nat (length s) <= SL
  | _, _ => base_ok SL t v = true
  end.
Lemma x_bound_spec o : x_bound o = accel_bound o.
Proof.
  unfold x_bound, as_limit, accel_bound. destruct o as [l|]; [|reflexivity].
  change (2 ^ 63) with 9223372036854775808. change (2 ^ 31) with 2147483648.
  change (- (9223372036854775808)) with (-9223372036854775808).
  destruct ((-9223372036854775808 <=? l) && (l <=? 9223372036854775807)) eqn:E,
    ((-9223372036854775808 <=? l) && (l <? 9223372036854775808)) eqn:G; lia.
Qed.
Lemma decoded_mono env (B B' : ty -> value -> Prop) (CL CL' : Z -> Prop) :
  (forall t v, B t v -> B' t v) -> (forall k, CL k -> CL' k) ->
  forall v t, decoded env B CL t v -> decoded env B' CL' t v.
Proof.
  intros HB HC. fix IH 3. intros v t H.
  destruct H as [t v Hb H|t l (k & Hk & Hc) H|t l (k & Hk & Hc) H|k t l (j & Hj & Hc) H|n ds fs E H].
  - apply D_base; auto.
  - apply D_list; [exists k; auto|]. clear Hk. induction H; constructor; [apply IH; assumption|assumption].
  - apply D_set; [exists k; auto|]. clear Hk. induction H; constructor; [apply IH; assumption|assumption].
  - apply D_map; [exists j; auto|]. clear Hj.
    induction H as [|p l' [H1 H2] Hl IHl]; constructor; [|assumption].
    split; apply IH; assumption.
  - eapply D_struct; [exact E|].
    clear E. induction H as [|d f ds' fs' Hf Hl IHl]; constructor; [|assumption].
    destruct Hf as [Hf|(x & Hf & Hx)]; [left; exact Hf|right].
    exists x. split; [exact Hf|apply IH, Hx].
Qed.
Lemma x_within SL t v : x_base_ok SL t v = true -> within_type SL t v.
Proof.
  unfold within_type, x_base_ok. destruct t, v; auto.
  intros H. apply andb_prop in H as [H1 H2]. split; [|lia].
  apply Forall_forall. rewrite forallb_forall in H1. exact H1.
Qed.

Theorem C55_binary_types : forall big sl cl env n buf v rest,
  fast_deserialize (dbinary big sl cl) tt env n buf = Ok (v, rest) ->
  decoded env (within_type (accel_bound sl)) (fun k => k <= accel_bound cl) (TStruct n) v.
Proof.
  intros big sl cl env n buf v rest H. rewrite <- !x_bound_spec.
  eapply decoded_mono; [| |exact (binary_fast_decoded _ _ _ _ _ _ _ _ H)]; [|auto].
  intros t w. apply x_within.
Qed.
Theorem C55_compact_types : forall big sl cl env n buf v rest,
  fast_deserialize (dcompact big sl cl) crd_init env n buf = Ok (v, rest) ->
  decoded env (within_type (accel_bound sl)) (fun k => k <= accel_bound cl) (TStruct n) v.
Proof.
  intros big sl cl env n buf v rest H. rewrite <- !x_bound_spec.
  eapply decoded_mono; [| |exact (compact_fast_decoded _ _ _ _ _ _ _ _ _ H)]; [|auto].
  intros t w. apply x_within.
Qed.

Example C55_types_ex : exists v, fast_deserialize (dbinary false (Some 4) (Some 2)) tt fx_env 0
   [x0b; x00; x29; x00; x00; x00; x03; xe2; x82; x41;
    x0f; x01; x2c; x02; x00; x00; x00; x02; x01; x02; x00] = Ok (v, [])
   /\ nth_error (match v with VStruct _ fs => fs | _ => [] end) 6
      = Some (Some (VStr [65533; 65])).
Proof. eexists. split; vm_compute; reflexivity. Qed.

(** ** Nesting

    No object with more than 64 structs inside one another is ever returned
    (default values being free of structs) ... *)
Theorem C55_depth : forall big sl cl env n buf v rest, flat_defaults env = true ->
  fast_deserialize (dbinary big sl cl) tt env n buf = Ok (v, rest)
  \/ fast_deserialize (dcompact big sl cl) crd_init env n buf = Ok (v, rest) ->
  (sdepth v <= 64)%nat.
Proof.
  intros big sl cl env n buf v rest Hf [H|H].
  - exact (fast_depth _ (dbinary_keeps big sl cl) (decode_base_flat _) _ _ _ _ _ _ Hf H).
  - exact (fast_depth _ (dcompact_keeps big sl cl) (decode_base_flat _) _ _ _ _ _ _ Hf H).
Qed.

(** ... and 64 are accepted. *)
Example C55_depth_ex : flat_defaults rec_env = true
  /\ fast_deserialize (dbinary false None None) tt rec_env 0
       (sb_value rec_env (TStruct 0) (chain 63)) = Ok (chain 63, [])
  /\ fast_deserialize (dcompact false None None) crd_init rec_env 0
       (sc_value rec_env (TStruct 0) (chain 63)) = Ok (chain 63, [])
  /\ fast_deserialize (dbinary false None None) tt rec_env 0
       (sb_value rec_env (TStruct 0) (chain 64)) = Raise (EProtocol TP_DEPTH_LIMIT)
  /\ fast_deserialize (dcompact false None None) crd_init rec_env 0
       (sc_value rec_env (TStruct 0) (chain 64)) = Raise (EProtocol TP_DEPTH_LIMIT).
Proof. repeat split; vm_compute; reflexivity. Qed.

(** ** Inputs on which the decoders and the Python readers part

    Bytes no writer produces; each is accepted by one side or read
    differently. *)

(** A bool byte other than 0 and 1 is true for Python, false for C. *)
Theorem C55_bool_byte_refuted : exists env buf,
  deserialize (binary bdefault) tt env 0 buf = Ok (VStruct 0 [Some (VBool true)], [])
  /\ forall big, fast_deserialize (dbinary big None None) tt env 0 buf
     = Ok (VStruct 0 [Some (VBool false)], []).
Proof.
  exists [[mkfield 1 TBool false None]], [x02; x00; x01; x02; x00].
  split; [|intros []]; vm_compute; reflexivity.
Qed.

(** A string that is not UTF-8 is an error for Python; C puts U+FFFD. *)
Theorem C55_bad_utf8_refuted : exists env bufb bufc,
  deserialize (binary bdefault) tt env 0 bufb = Raise EUnicodeDecode
  /\ deserialize (compact cdefault) c_init env 0 bufc = Raise EUnicodeDecode
  /\ (forall big, fast_deserialize (dbinary big None None) tt env 0 bufb
       = Ok (VStruct 0 [Some (VStr [65533])], []))
  /\ (forall big, fast_deserialize (dcompact big None None) crd_init env 0 bufc
       = Ok (VStruct 0 [Some (VStr [65533])], [])).
Proof.
  exists [[mkfield 1 TString false None]],
    [x0b; x00; x01; x00; x00; x00; x01; xff; x00], [x18; x01; xff; x00].
  split; [vm_compute; reflexivity|]. split; [vm_compute; reflexivity|].
  split; intros []; vm_compute; reflexivity.
Qed.

(** A string in an unknown field escapes the string limit in C. *)
Theorem C55_skip_limit_refuted : exists env buf bufc l,
  (exists e, deserialize (binary (mkbconf false true (Some l) None)) tt env 0 buf = Raise e)
  /\ (exists e, deserialize (compact (mkcconf (Some l) None)) c_init env 0 bufc = Raise e)
  /\ (forall big, fast_deserialize (dbinary big (Some l) None) tt env 0 buf
       = Ok (VStruct 0 [None], []))
  /\ (forall big, fast_deserialize (dcompact big (Some l) None) crd_init env 0 bufc
       = Ok (VStruct 0 [None], [])).
Proof.
  exists [[mkfield 1 TI32 false None]],
    [x0b; x00; x02; x00; x00; x00; x03; x61; x62; x63; x00],
    [x28; x03; x61; x62; x63; x00], 1.
  split; [eexists; vm_compute; reflexivity|]. split; [eexists; vm_compute; reflexivity|].
  split; intros []; vm_compute; reflexivity.
Qed.

(** A compact field id beyond 16 bits is cut to 16 bits by C: an unknown field
    for Python, field 1 for C; an i32 beyond 32 bits likewise. *)
Theorem C55_varint_refuted : exists env buf1 buf2 w,
  deserialize (compact cdefault) c_init env 0 buf1 = Ok (VStruct 0 [None], [])
  /\ (forall big, fast_deserialize (dcompact big None None) crd_init env 0 buf1
       = Ok (VStruct 0 [Some (VInt 7)], []))
  /\ deserialize (compact cdefault) c_init env 0 buf2 = Ok (VStruct 0 [Some (VInt w)], [])
  /\ (forall big, fast_deserialize (dcompact big None None) crd_init env 0 buf2
       = Ok (VStruct 0 [Some (VInt 0)], []))
  /\ w > 2147483647.
Proof.
  exists [[mkfield 1 TI32 false None]], [x05; x82; x80; x04; x0e; x00],
    [x15; x80; x80; x80; x80; x10; x00], 2147483648.
  split; [vm_compute; reflexivity|]. split; [intros []; vm_compute; reflexivity|].
  split; [vm_compute; reflexivity|]. split; [intros []; vm_compute; reflexivity|]. lia.
Qed.

(** A map over its limit is reported as a type error. *)
Theorem C55_map_limit_refuted : exists env buf l big,
  fast_deserialize (dbinary big None (Some l)) tt env 0 buf = Raise ETypeError
  /\ deserialize (binary (mkbconf false true None (Some l))) tt env 0 buf
     = Raise (ETransport TT_SIZE_LIMIT).
Proof.
  exists [[mkfield 1 (TMap TI32 TI32) false None]],
    [x0d; x00; x01; x08; x08; x00; x00; x00; x05; x00], 4, false.
  split; vm_compute; reflexivity.
Qed.

(** Axioms used. *)
Print Assumptions C54_binary_schema_evolution.
Print Assumptions C54_compact_schema_evolution.
Print Assumptions C54_shallow_can_be_dropped.
Print Assumptions C54_binary_round_trip.
Print Assumptions C54_compact_round_trip.
Print Assumptions C54_round_trip_equal.
Print Assumptions C54_binary_agrees.
Print Assumptions C54_compact_agrees.
Print Assumptions C54_deep_unknown_field_refuted.
Print Assumptions C54_unknown_binary_refuted.
Print Assumptions C54_negative_id_refuted.
Print Assumptions C55_compact_total.
Print Assumptions C55_binary_total.
Print Assumptions C55_binary_terminates.
Print Assumptions C55_binary_overread_refuted.
Print Assumptions C55_binary_types.
Print Assumptions C55_compact_types.
Print Assumptions C55_depth.
Print Assumptions C55_bool_byte_refuted.
Print Assumptions C55_bad_utf8_refuted.
Print Assumptions C55_skip_limit_refuted.
Print Assumptions C55_varint_refuted.
Print Assumptions C55_map_limit_refuted.
