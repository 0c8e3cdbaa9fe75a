(** C77: TSerialization's [deserialize(base, buf)], which reads a message into
    an object the caller supplies. *)
From Coq Require Import ZArith List Bool Lia.
From Coq Require Import Init.Byte.
From Verif Require Import Base Bytes Utf8 Proto Spec StructFacts
  Binary BinaryLaws SpecBinary Compact CompactLaws SpecCompact
  JsonText Json JsonLaws SpecJson InstFacts JsonFacts
  Dynamic DynamicFacts DynamicRead SpecDynamic Ext ExtRead SpecExt ExtReadGen ExtReadBinary
  ExtReadCompact ExtReadFacts Into IntoFacts IntoRead IntoFast IntoFastFacts Examples.
Import ListNotations.
Open Scope Z_scope.

(** * Any protocol, any input *)

(** On a new object it does what reading a new object does (Proto.v's
    [deserialize], which the other properties are about). *)
Theorem C77_new_object : forall X (P : proto X) x0 env imm n ds buf,
  nth_error env n = Some ds -> imm n = false ->
  match deserialize_into P env imm x0 n (fresh ds) buf with
  | (Ok _, after) => exists rest, deserialize P x0 env n buf = Ok (VStruct n after, rest)
  | (Raise e, _) => deserialize P x0 env n buf = Raise e
  | (Diverge, _) => deserialize P x0 env n buf = Diverge
  end.
Proof.
  intros X P x0 env imm n ds buf E Him. unfold deserialize_into, deserialize.
  rewrite Him, (into_struct_fresh P env imm DFUEL (S (length buf)) n ds E (mkst x0 buf [] 0)).
  destruct (into_struct _ _ _ _ _ _ _ _) as [[[[]|e|] a] s'];
    cbn [fin]; eauto.
Qed.

(** How it ends, which attributes it assigns and what it assigns to them depend
    on the input only, whether it fails or not; the others stay as they were. *)
Theorem C77_assigned : forall X (P : proto X) x0 env imm n k buf,
  exists o (p : list (option value)), length p = k
  /\ forall base, length base = k ->
     exists after, deserialize_into P env imm x0 n base buf = (o, after)
     /\ length after = length base
     /\ forall i old, nth_error base i = Some old ->
        nth_error after i
        = match nth_error p i with
          | Some (Some v) => Some (Some v)
          | _ => Some old
          end.
Proof.
  intros X P x0 env imm n k buf. unfold deserialize_into.
  assert (U : uniform k
    (if imm n then call (read_struct P env DFUEL (S (length buf)) n)
     else into_struct P env imm DFUEL (S (length buf)) n)).
  { destruct (imm n); [apply uniform_call|apply into_struct_uniform]. }
  destruct (U (mkst x0 buf [] 0)) as (o & p & s' & Hp & H).
  exists o, p. split; [exact Hp|]. intros base Hb. exists (overlay p base).
  split; [|split; [apply overlay_length|]].
  - specialize (H base Hb). destruct (imm n); rewrite H; reflexivity.
  - rewrite <- Hb in Hp. clear -Hp. revert base Hp.
    induction p as [|[v|] p IH]; intros [|b base] Hp [|i] old Hi; try discriminate;
      cbn [overlay nth_error] in *; try exact Hi; try reflexivity;
      apply IH; (injection Hp as Hp; exact Hp) || exact Hi.
Qed.

(** Exceptions and structs annotated [python.immutable] (defect): [read] makes
    a new object, which is dropped.  What comes back is the caller's object, as
    it was, whatever the message says. *)
Theorem C77_immutable_lost : forall X (P : proto X) x0 env imm n base buf v rest,
  imm n = true -> deserialize P x0 env n buf = Ok (v, rest) ->
  deserialize_into P env imm x0 n base buf = (Ok tt, base).
Proof.
  intros X P x0 env imm n base buf v rest Him H. unfold deserialize_into, deserialize in *.
  rewrite Him. unfold call, ask, done.
  destruct (read_struct _ _ _ _ _ _) as [[w|e|] s']; try discriminate. reflexivity.
Qed.

(** * Messages as written, by this or another version of the program *)

(** What is in the reader's attributes after a message [fs] of a struct [dsW]
    was read into an object of class [dsR] with attributes [base]: fields sent
    with the id and the wire type the reader has are there as the reader should
    see them, and the other attributes are those of [base]. *)
Definition updated (envW envR : schema) (fs : list (option value))
    (dsW dsR : list fielddef) (base after : list (option value)) : Prop :=
  length after = length base
  /\ forall i dR old, nth_error dsR i = Some dR -> nth_error base i = Some old ->
     (forall j d x, nth_error dsW j = Some d -> nth_error fs j = Some (Some x) ->
        f_id d = f_id dR -> code (f_ty d) = code (f_ty dR) ->
        nth_error after i = Some (Some (proj envW envR (f_ty d) (f_ty dR) x)))
     /\ ((forall j d x, nth_error dsW j = Some d -> nth_error fs j = Some (Some x) ->
            f_id d = f_id dR -> code (f_ty d) <> code (f_ty dR)) ->
         nth_error after i = Some old).

Lemma looked_updated {I} envW envR fs dsW dsR base n : schema_okd I envW ->
  nth_error envW n = Some dsW -> length base = length dsR ->
  updated envW envR fs dsW dsR base (looked envW envR dsR fs dsW base).
Proof.
  intros Hok E Hl. destruct (Hok _ _ E) as [Hnd _].
  split; [apply looked_length, Hl|]. intros i dR old Hd Hb.
  rewrite (looked_nth _ _ _ _ _ _ _ _ _ Hd Hb). split.
  - intros j d x Hj Hf Hi Hc. f_equal. eapply look_sent; eassumption.
  - intros H. f_equal. apply look_unsent. exact H.
Qed.

Theorem C77_binary_update : forall cf SL CL envW envR R imm n m fs dsW dsR base tail,
  b_limits cf SL CL ->
  schema_ok envW -> schema_ok envR -> compat_env envW envR R -> R n m = true ->
  nth_error envW n = Some dsW -> nth_error envR m = Some dsR ->
  length base = length dsR -> imm m = false ->
  wf envW SL CL (TStruct n) (VStruct n fs) = true ->
  (sdepth (VStruct n fs) <= 64)%nat ->
  drop_ok envW envR utf8_valid SKIP_DEPTH (TStruct n) (TStruct m) (VStruct n fs) = true ->
  exists after,
    deserialize_into (binary cf) envR imm tt m base
      (sb_value envW (TStruct n) (VStruct n fs) ++ tail) = (Ok tt, after)
    /\ updated envW envR fs dsW dsR base after.
Proof.
  intros. eexists. split; [eapply binary_into; eassumption|].
  eapply looked_updated; eassumption.
Qed.

Theorem C77_compact_update : forall cf SL CL envW envR R imm n m fs dsW dsR base tail,
  c_limits cf SL CL ->
  schema_ok envW -> schema_ok envR -> compat_env envW envR R -> R n m = true ->
  nth_error envW n = Some dsW -> nth_error envR m = Some dsR ->
  length base = length dsR -> imm m = false ->
  wf envW SL CL (TStruct n) (VStruct n fs) = true ->
  (sdepth (VStruct n fs) <= 64)%nat ->
  drop_ok envW envR utf8_valid SKIP_DEPTH (TStruct n) (TStruct m) (VStruct n fs) = true ->
  exists after,
    deserialize_into (compact cf) envR imm c_init m base
      (sc_value envW (TStruct n) (VStruct n fs) ++ tail) = (Ok tt, after)
    /\ updated envW envR fs dsW dsR base after.
Proof.
  intros. eexists. split; [eapply compact_into; eassumption|].
  eapply looked_updated; eassumption.
Qed.

Theorem C77_json_update : forall limit SL CL envW envR R imm n m fs dsW dsR base tail,
  j_limits limit SL CL ->
  schema_ok envW -> schema_ok envR -> compat_env envW envR R -> R n m = true ->
  nth_error envW n = Some dsW -> nth_error envR m = Some dsR ->
  length base = length dsR -> imm m = false ->
  wfd finite envW SL CL (TStruct n) (VStruct n fs) = true ->
  (sdepth (VStruct n fs) <= 64)%nat ->
  drop_ok envW envR (fun _ => true) SKIP_DEPTH (TStruct n) (TStruct m) (VStruct n fs) = true ->
  exists after,
    deserialize_into (json limit) envR imm j_init m base
      (sj_value envW false (TStruct n) (VStruct n fs) ++ tail) = (Ok tt, after)
    /\ updated envW envR fs dsW dsR base after.
Proof.
  intros. eexists. split; [eapply json_into; eassumption|].
  eapply looked_updated; eassumption.
Qed.

(** Between two objects of one program: the attributes set in the object sent
    are copied; those not set keep what the receiving object had (so the values
    of an earlier message stay), where a new object has the defaults. *)
Definition copied (env : schema) (ds : list fielddef)
    (fs base after : list (option value)) : Prop :=
  length after = length base
  /\ forall i d f old, nth_error ds i = Some d -> nth_error fs i = Some f ->
     nth_error base i = Some old ->
     nth_error after i
     = Some (match f with
             | Some x => Some (with_defaults env (f_ty d) x)
             | None => old
             end).

Theorem C77_binary_copy : forall cfW cfR SL CL env imm n ds fs base tail,
  schema_ok env -> schema_closed env = true -> b_limits cfR SL CL ->
  nth_error env n = Some ds -> length base = length ds -> imm n = false ->
  wf env SL CL (TStruct n) (VStruct n fs) = true ->
  (sdepth (VStruct n fs) <= 64)%nat ->
  exists bs after, serialize (binary cfW) tt env n (VStruct n fs) = Ok bs
    /\ deserialize_into (binary cfR) env imm tt n base (bs ++ tail) = (Ok tt, after)
    /\ copied env ds fs base after.
Proof.
  intros cfW cfR SL CL env imm n ds fs base tail Hok Hc Hl E Hb Him Hwf Hd.
  eexists _, _. split; [eapply binary_serialize; eauto; apply Hl|]. split.
  - eapply binary_into; try eassumption.
    + eapply compat_env_same; eassumption.
    + apply same_in. eapply wf_struct_in; eassumption.
    + eapply drop_ok_same; eassumption.
  - split; [apply looked_length, Hb|]. intros. eapply looked_same; eassumption.
Qed.

Theorem C77_compact_copy : forall cfW cfR SL CL env imm n ds fs base tail,
  schema_ok env -> schema_closed env = true -> c_limits cfR SL CL ->
  nth_error env n = Some ds -> length base = length ds -> imm n = false ->
  wf env SL CL (TStruct n) (VStruct n fs) = true ->
  (sdepth (VStruct n fs) <= 64)%nat ->
  exists bs after, serialize (compact cfW) c_init env n (VStruct n fs) = Ok bs
    /\ deserialize_into (compact cfR) env imm c_init n base (bs ++ tail) = (Ok tt, after)
    /\ copied env ds fs base after.
Proof.
  intros cfW cfR SL CL env imm n ds fs base tail Hok Hc Hl E Hb Him Hwf Hd.
  eexists _, _. split; [eapply compact_serialize; eauto; apply Hl|]. split.
  - eapply compact_into; try eassumption.
    + eapply compat_env_same; eassumption.
    + apply same_in. eapply wf_struct_in; eassumption.
    + eapply drop_ok_same; eassumption.
  - split; [apply looked_length, Hb|]. intros. eapply looked_same; eassumption.
Qed.

Theorem C77_json_copy : forall limitW limitR SL CL env imm n ds fs base tail,
  schema_ok env -> schema_closed env = true -> j_limits limitR SL CL ->
  nth_error env n = Some ds -> length base = length ds -> imm n = false ->
  wfd finite env SL CL (TStruct n) (VStruct n fs) = true ->
  (sdepth (VStruct n fs) <= 64)%nat ->
  exists bs after, serialize (json limitW) j_init env n (VStruct n fs) = Ok bs
    /\ deserialize_into (json limitR) env imm j_init n base (bs ++ tail) = (Ok tt, after)
    /\ copied env ds fs base after.
Proof.
  intros limitW limitR SL CL env imm n ds fs base tail Hok Hc Hl E Hb Him Hwf Hd.
  eexists _, _. split; [eapply json_serialize; eauto; apply Hl|]. split.
  - eapply json_into; try eassumption.
    + eapply compat_env_same; eassumption.
    + apply same_in. eapply wfd_struct_in; eassumption.
    + eapply drop_ok_same; eassumption.
  - split; [apply looked_length, Hb|]. intros. eapply looked_same; eassumption.
Qed.

(** * When reading fails *)

(** The object the caller supplied is left changed (defect): a message that
    ends after the header of a field holding a container, or an object of a
    changeable class, raises EOFError with that attribute emptied. *)
Theorem C77_cut_loses : forall cf env imm n ds i d v base,
  schema_ok env -> imm n = false -> nth_error env n = Some ds ->
  nth_error ds i = Some d ->
  match f_ty d with
  | TList _ => v = VList []
  | TSet _ => v = VSet []
  | TMap _ _ => v = VMap []
  | TStruct k => imm k = false
      /\ exists dk, nth_error env k = Some dk /\ v = VStruct k (map f_def dk)
  | _ => False
  end ->
  deserialize_into (binary cf) env imm tt n base
    (int8 (sb_type (f_ty d)) ++ int16 (f_id d))
  = (Raise EEOFError, set_nth i (Some v) base).
Proof.
  intros cf env imm n ds i d v base Hok Him E Hd Hv.
  eapply binary_cut; try eassumption.
  - destruct (f_ty d); try exact Hv. destruct Hv as [_ Hv]. exact Hv.
  - intros k Ek. rewrite Ek in Hv. apply Hv.
Qed.

(** With an accelerated protocol, nothing is read of a class that is not in the
    schema, and the object stays as it was. *)
Theorem C77_fast_unknown : forall X (D : dimpl X) x0 env imm n base buf,
  nth_error env n = None ->
  fast_into D env imm x0 n base buf = (Raise ETypeError, base)
  /\ fast_deserialize D x0 env n buf = Raise ETypeError.
Proof.
  intros X D x0 env imm n base buf E. unfold fast_into, fast_deserialize.
  change 66%nat with (S 65). generalize 65%nat. intros k.
  cbn [cread_struct cinto_struct]. rewrite E. destruct (imm n); split; reflexivity.
Qed.

(** * With an accelerated protocol *)

Theorem C77_fast_new_object : forall X (D : dimpl X) x0 env imm n ds buf,
  nth_error env n = Some ds -> imm n = false ->
  match fast_into D env imm x0 n (map f_def ds) buf with
  | (Ok _, after) => exists rest, fast_deserialize D x0 env n buf = Ok (VStruct n after, rest)
  | (Raise e, _) => fast_deserialize D x0 env n buf = Raise e
  | (Diverge, _) => fast_deserialize D x0 env n buf = Diverge
  end.
Proof.
  intros X D x0 env imm n ds buf E Him. unfold fast_into, fast_deserialize.
  rewrite Him, (cinto_struct_fresh D env 66 (S (length buf)) n ds E (mkst x0 buf [] 0)).
  change (map f_def ds) with (fresh ds).
  destruct (cinto_struct _ _ _ _ _ _ _) as [[[[]|e|] a] s'];
    cbn [fin]; eauto.
Qed.

Theorem C77_fast_assigned : forall X (D : dimpl X) x0 env imm n k buf,
  exists o (p : list (option value)), length p = k
  /\ forall base, length base = k ->
     exists after, fast_into D env imm x0 n base buf = (o, after)
     /\ length after = length base
     /\ forall i old, nth_error base i = Some old ->
        nth_error after i
        = match nth_error p i with
          | Some (Some v) => Some (Some v)
          | _ => Some old
          end.
Proof.
  intros X D x0 env imm n k buf. unfold fast_into.
  assert (U : uniform k
    (if imm n then call (cread_struct D env 66 (S (length buf)) n)
     else cinto_struct D env 66 (S (length buf)) n)).
  { destruct (imm n); [apply uniform_call|apply cinto_struct_uniform]. }
  destruct (U (mkst x0 buf [] 0)) as (o & p & s' & Hp & H).
  exists o, p. split; [exact Hp|]. intros base Hb. exists (overlay p base).
  split; [|split; [apply overlay_length|]].
  - specialize (H base Hb). destruct (imm n); rewrite H; reflexivity.
  - rewrite <- Hb in Hp. clear -Hp. revert base Hp.
    induction p as [|[v|] p IH]; intros [|b base] Hp [|i] old Hi; try discriminate;
      cbn [overlay nth_error] in *; try exact Hi; try reflexivity;
      apply IH; (injection Hp as Hp; exact Hp) || exact Hi.
Qed.

(** Where the Python reader leaves an attribute emptied or half read
    ([C77_cut_loses]), the decoder assigns values only once they are complete:
    whether it succeeds or fails, every attribute is the one the object had, or
    a value the decoder has read to its end as one of that field's type. *)
Theorem C77_fast_whole : forall X (D : dimpl X) x0 env imm n ds base buf o after,
  table_schema env -> nth_error env n = Some ds ->
  fast_into D env imm x0 n base buf = (o, after) ->
  forall i w, nth_error after i = Some w ->
  nth_error base i = Some w
  \/ exists d x k s s', nth_error ds i = Some d /\ w = Some x
       /\ decodeValue D (cread_struct D env k (S (length buf))) (S (length buf))
            (f_ty d) s = (Ok x, s').
Proof.
  intros X D x0 env imm n ds base buf o after Ht E H i w Hw. unfold fast_into in H.
  destruct (imm n).
  { unfold call, ask, done in H.
    destruct (cread_struct D env 66 _ n _) as [[v|e|] s1]; injection H as _ <-; auto. }
  revert H. change 66%nat with (S 65). generalize 65%nat as k. intros k.
  unfold cinto_struct. rewrite E. unfold guarded.
  destruct (_ >? 64). { intros H. injection H as _ <-. auto. }
  unfold scoped, thn, call, ask.
  destruct (d_readStructBegin D _) as [[[]|e|] s1].
  2,3: intros H; injection H as _ <-; auto.
  cbn beta iota delta [done].
  destruct (cinto_fields _ _ _ _ _ _ base s1) as [[o1 a1] s2] eqn:Ec.
  intros H. injection H as _ <-.
  destruct (cinto_fields_whole D _ _ _ _ _ _ _ _ _ _ (Ht _ _ E) Ec i w Hw)
    as [?|(d & x & s3 & s4 & Hd & -> & Hx)]; [auto|].
  right. exists d, x, k, s3, s4. auto.
Qed.

(** The same defect as [C77_immutable_lost]. *)
Theorem C77_fast_immutable_lost : forall X (D : dimpl X) x0 env imm n base buf v rest,
  imm n = true -> fast_deserialize D x0 env n buf = Ok (v, rest) ->
  fast_into D env imm x0 n base buf = (Ok tt, base).
Proof.
  intros X D x0 env imm n base buf v rest Him H. unfold fast_into, fast_deserialize in *.
  rewrite Him. unfold call, ask, done.
  destruct (cread_struct _ _ _ _ _ _) as [[w|e|] s']; try discriminate. reflexivity.
Qed.

Theorem C77_fast_binary_update : forall big sl cl SL CL envW envR R imm n m fs dsW dsR base tail,
  x_limits sl cl SL CL ->
  schema_ok envW -> table_schema envR -> compat_env envW envR R -> R n m = true ->
  nth_error envW n = Some dsW -> nth_error envR m = Some dsR ->
  length base = length dsR -> imm m = false ->
  wf envW SL CL (TStruct n) (VStruct n fs) = true ->
  (sdepth (VStruct n fs) <= 64)%nat ->
  drop_within envW envR 64 (TStruct n) (TStruct m) (VStruct n fs) = true ->
  exists after,
    fast_into (dbinary big sl cl) envR imm tt m base
      (sb_value envW (TStruct n) (VStruct n fs) ++ tail) = (Ok tt, after)
    /\ updated envW envR fs dsW dsR base after.
Proof.
  intros. eexists. split; [eapply fast_binary_into; eassumption|].
  eapply looked_updated; eassumption.
Qed.

Theorem C77_fast_compact_update : forall big sl cl SL CL envW envR R imm n m fs dsW dsR base tail,
  x_limits sl cl SL CL ->
  schema_ok envW -> table_schema envR -> compat_env envW envR R -> R n m = true ->
  nth_error envW n = Some dsW -> nth_error envR m = Some dsR ->
  length base = length dsR -> imm m = false ->
  wf envW SL CL (TStruct n) (VStruct n fs) = true ->
  (sdepth (VStruct n fs) <= 64)%nat ->
  drop_within envW envR 64 (TStruct n) (TStruct m) (VStruct n fs) = true ->
  exists after,
    fast_into (dcompact big sl cl) envR imm crd_init m base
      (sc_value envW (TStruct n) (VStruct n fs) ++ tail) = (Ok tt, after)
    /\ updated envW envR fs dsW dsR base after.
Proof.
  intros. eexists. split; [eapply fast_compact_into; eassumption|].
  eapply looked_updated; eassumption.
Qed.

(** What the Python writer wrote, read by the decoder into an object of the same
    class. *)
Theorem C77_fast_binary_copy : forall cfW big sl cl SL CL env imm n ds fs base tail,
  table_schema env -> schema_closed env = true -> x_limits sl cl SL CL ->
  nth_error env n = Some ds -> length base = length ds -> imm n = false ->
  wf env SL CL (TStruct n) (VStruct n fs) = true ->
  (sdepth (VStruct n fs) <= 64)%nat ->
  exists bs after, serialize (binary cfW) tt env n (VStruct n fs) = Ok bs
    /\ fast_into (dbinary big sl cl) env imm tt n base (bs ++ tail) = (Ok tt, after)
    /\ copied env ds fs base after.
Proof.
  intros cfW big sl cl SL CL env imm n ds fs base tail Ht Hc Hl E Hb Him Hwf Hd.
  assert (Hok : schema_ok env) by exact (id16_table _ Ht).
  eexists _, _. split; [eapply (binary_serialize cfW SL CL); eauto; apply Hl|]. split.
  - eapply fast_binary_into; try eassumption.
    + eapply compat_env_same; eassumption.
    + apply same_in. eapply wf_struct_in; eassumption.
    + eapply drop_within_same; eassumption.
  - split; [apply looked_length, Hb|]. intros. eapply looked_same; eassumption.
Qed.

Theorem C77_fast_compact_copy : forall cfW big sl cl SL CL env imm n ds fs base tail,
  table_schema env -> schema_closed env = true -> x_limits sl cl SL CL ->
  nth_error env n = Some ds -> length base = length ds -> imm n = false ->
  wf env SL CL (TStruct n) (VStruct n fs) = true ->
  (sdepth (VStruct n fs) <= 64)%nat ->
  exists bs after, serialize (compact cfW) c_init env n (VStruct n fs) = Ok bs
    /\ fast_into (dcompact big sl cl) env imm crd_init n base (bs ++ tail) = (Ok tt, after)
    /\ copied env ds fs base after.
Proof.
  intros cfW big sl cl SL CL env imm n ds fs base tail Ht Hc Hl E Hb Him Hwf Hd.
  assert (Hok : schema_ok env) by exact (id16_table _ Ht).
  eexists _, _. split; [eapply (compact_serialize cfW SL CL); eauto; apply Hl|]. split.
  - eapply fast_compact_into; try eassumption.
    + eapply compat_env_same; eassumption.
    + apply same_in. eapply wf_struct_in; eassumption.
    + eapply drop_within_same; eassumption.
  - split; [apply looked_length, Hb|]. intros. eapply looked_same; eassumption.
Qed.

(** * Cases *)

Definition im (n : nat) : bool := (n =? 2)%nat.

(** The object of an earlier message, and a later one without the flag. *)
Definition base_tree : list (option value) :=
  [Some (VInt 1); Some (VList []); Some (VBool true)].

Example C77_stale_ex : exists bs,
  serialize (binary bdefault) tt ex_env 0 (VStruct 0 [Some (VInt 5); None; None]) = Ok bs
  /\ deserialize_into (binary bdefault) ex_env im tt 0 base_tree bs
     = (Ok tt, [Some (VInt 5); Some (VList []); Some (VBool true)])
  /\ deserialize (binary bdefault) tt ex_env 0 bs
     = Ok (VStruct 0 [Some (VInt 5); None; None], []).
Proof. eexists. split; [reflexivity|]. split; reflexivity. Qed.

(** Hypotheses of the update theorems: [ex_all] read by the older program into
    an object that has been used before. *)
Example C77_update_ex : compat_env ex_env ex_old ex_rel /\ ex_rel 1 1 = true
  /\ drop_ok ex_env ex_old utf8_valid SKIP_DEPTH (TStruct 1) (TStruct 1) ex_all = true
  /\ deserialize_into (binary bdefault) ex_old im tt 1
       [Some (VInt 1); Some (VBool false); None; Some (VInt 3); None; Some (VInt 4)]
       (sb_value ex_env (TStruct 1) ex_all)
     = (Ok tt, [Some (VInt (-128)); Some (VBool false); None; Some (VInt 3);
                Some (VDouble 4607182418800017408); Some (VInt 4)]).
Proof. exact (conj ex_compat (conj eq_refl (conj eq_refl eq_refl))). Qed.

Example C77_compact_ex :
  match serialize (compact cdefault) c_init ex_env 0 (VStruct 0 [Some (VInt 5); None; Some (VBool false)]) with
  | Ok bs => deserialize_into (compact cdefault) ex_env im c_init 0 base_tree bs
             = (Ok tt, [Some (VInt 5); Some (VList []); Some (VBool false)])
  | _ => False
  end.
Proof. vm_compute. reflexivity. Qed.

Example C77_json_ex :
  match serialize (json None) j_init ex_env 0 (VStruct 0 [Some (VInt 5); None; Some (VBool false)]) with
  | Ok bs => deserialize_into (json None) ex_env im j_init 0 base_tree bs
             = (Ok tt, [Some (VInt 5); Some (VList []); Some (VBool false)])
  | _ => False
  end.
Proof. vm_compute. reflexivity. Qed.

(** An exception class: the message is read and dropped. *)
Example C77_immutable_ex : exists bs,
  serialize (binary bdefault) tt ex_env 0 (VStruct 0 [Some (VInt 5); None; None]) = Ok bs
  /\ deserialize_into (binary bdefault) ex_env (fun _ => true) tt 0 base_tree bs
     = (Ok tt, base_tree).
Proof. eexists. split; reflexivity. Qed.

(** A message cut within a list: the elements before the cut are there. *)
Example C77_cut_ex : exists bs,
  serialize (binary bdefault) tt [[mkfield 1 (TList TI16) false None]] 0
    (VStruct 0 [Some (VList [VInt 7; VInt 8])]) = Ok bs
  /\ deserialize_into (binary bdefault) [[mkfield 1 (TList TI16) false None]] im tt 0
       [Some (VList [VInt 1; VInt 2; VInt 3])] (firstn 11 bs)
     = (Raise EEOFError, [Some (VList [VInt 7])])
  /\ deserialize_into (binary bdefault) ex_env im tt 1 (repeat (Some (VInt 1)) 11)
       [x0c; x01; x2c]
     = (Raise EEOFError,
        repeat (Some (VInt 1)) 10 ++ [Some (VStruct 0 [None; None; None])]).
Proof. eexists. split; [reflexivity|]. split; reflexivity. Qed.

(** The decoder on the same inputs: the stale flag stays, and the cut messages
    change nothing that was not read to its end. *)
Definition cut_env : schema :=
  [[mkfield 1 TI32 false None; mkfield 2 (TList TI16) false None]].
Definition cut_msg : list byte :=
  sb_value cut_env (TStruct 0) (VStruct 0 [Some (VInt 9); Some (VList [VInt 7; VInt 8])]).

Example C77_fast_ex :
  fast_into (dbinary false None None) ex_env im tt 0 base_tree
    (sb_value ex_env (TStruct 0) (VStruct 0 [Some (VInt 5); None; None]))
  = (Ok tt, [Some (VInt 5); Some (VList []); Some (VBool true)])
  /\ fast_into (dcompact false None None) ex_env im crd_init 0 base_tree
    (sc_value ex_env (TStruct 0) (VStruct 0 [Some (VInt 5); None; Some (VBool false)]))
  = (Ok tt, [Some (VInt 5); Some (VList []); Some (VBool false)])
  /\ fast_into (dbinary false None None) cut_env im tt 0
       [Some (VInt 1); Some (VList [VInt 1; VInt 2])] (firstn 17 cut_msg)
     = (Raise EEOFError, [Some (VInt 9); Some (VList [VInt 1; VInt 2])])
  /\ deserialize_into (binary bdefault) cut_env im tt 0
       [Some (VInt 1); Some (VList [VInt 1; VInt 2])] (firstn 17 cut_msg)
     = (Raise EEOFError, [Some (VInt 9); Some (VList [VInt 7])]).
Proof. vm_compute. auto. Qed.

Example C77_fast_hyps_ex : table_schema cut_env /\ schema_closed cut_env = true
  /\ drop_within cut_env cut_env 64 (TStruct 0) (TStruct 0)
       (VStruct 0 [Some (VInt 9); Some (VList [VInt 7; VInt 8])]) = true
  /\ fast_into (dbinary false None None) cut_env (fun _ => true) tt 0 [None; None] cut_msg
     = (Ok tt, [None; None]).
Proof.
  split; [|repeat split; vm_compute; reflexivity].
  intros [|[|n]] ds E; try discriminate E. injection E as <-. split.
  - repeat constructor.
  - intros d [<-|[<-|[]]]; cbn; lia.
Qed.

(** Axioms used. *)
Print Assumptions C77_new_object.
Print Assumptions C77_assigned.
Print Assumptions C77_immutable_lost.
Print Assumptions C77_binary_update.
Print Assumptions C77_compact_update.
Print Assumptions C77_json_update.
Print Assumptions C77_binary_copy.
Print Assumptions C77_compact_copy.
Print Assumptions C77_json_copy.
Print Assumptions C77_cut_loses.
Print Assumptions C77_fast_unknown.
Print Assumptions C77_fast_new_object.
Print Assumptions C77_fast_assigned.
Print Assumptions C77_fast_whole.
Print Assumptions C77_fast_immutable_lost.
Print Assumptions C77_fast_binary_update.
Print Assumptions C77_fast_compact_update.
Print Assumptions C77_fast_binary_copy.
Print Assumptions C77_fast_compact_copy.
