(** C15: the table-driven struct code of dynamic classes (TBase and
    TProtocolBase.readStruct/writeStruct) against the generated code. *)
From Coq Require Import ZArith List Bool Lia ZifyBool Sorted.
From Coq Require Import Init.Byte.
From Verif Require Import Base Bytes Utf8 Proto Spec StructFacts
  Binary BinaryLaws SpecBinary Compact CompactLaws SpecCompact InstFacts SafeInst
  JsonText Json JsonLaws SpecJson JsonFacts
  Dynamic SpecDynamic DynamicFacts DynamicInst DynamicRead DynamicDefects Examples.
Import ListNotations.
Open Scope Z_scope.

(** * Agreement on every input

    The input is arbitrary.  [checked P] runs the generated reader and notices
    negative field ids and container sizes that are negative or above
    sys.maxsize; when it notices none, and the depth limit is not met, both
    readers end in the same way with the same object or the same exception. *)
Theorem C15_binary_read_agree : forall cf env n buf r, table_schema env ->
  deserialize (checked (binary cf)) tt env n buf = r ->
  r <> Diverge -> r <> Raise OUTSIDE -> r <> Raise (EProtocol TP_DEPTH_LIMIT) ->
  deserialize (binary cf) tt env n buf = r /\ ddeserialize (binary cf) tt env n buf = r.
Proof.
  intros cf env n buf r He E H1 H2 H3.
  apply (deserialize_agree qd qd_depth (or_introl eq_refl) _ (binary_ag_r _ qd_depth cf));
    try assumption.
  intros e -> [->| ->]; [apply H2|apply H3]; reflexivity.
Qed.

Theorem C15_compact_read_agree : forall cf env n buf r, table_schema env ->
  deserialize (checked (compact cf)) c_init env n buf = r ->
  r <> Diverge -> r <> Raise OUTSIDE -> r <> Raise (EProtocol TP_DEPTH_LIMIT) ->
  deserialize (compact cf) c_init env n buf = r
  /\ ddeserialize (compact cf) c_init env n buf = r.
Proof.
  intros cf env n buf r He E H1 H2 H3.
  apply (deserialize_agree qd qd_depth (or_introl eq_refl) _ (compact_ag_r _ qd_depth cf));
    try assumption.
  intros e -> [->| ->]; [apply H2|apply H3]; reflexivity.
Qed.

Theorem C15_json_read_agree : forall limit env n buf r, table_schema env ->
  deserialize (checked (json limit)) j_init env n buf = r ->
  r <> Diverge -> r <> Raise OUTSIDE -> r <> Raise (EProtocol TP_DEPTH_LIMIT) ->
  deserialize (json limit) j_init env n buf = r
  /\ ddeserialize (json limit) j_init env n buf = r.
Proof.
  intros limit env n buf r He E H1 H2 H3.
  apply (deserialize_agree qd qd_depth (or_introl eq_refl) _ (json_ag_r _ qd_depth limit));
    try assumption.
  intros e -> [->| ->]; [apply H2|apply H3]; reflexivity.
Qed.

(** Writing any object, well typed or not, whose structs have their attributes
    and their required fields. *)
Theorem C15_binary_write_agree : forall cf env n v r, table_schema env ->
  complete env v = true -> serialize (binary cf) tt env n v = r ->
  r <> Diverge -> r <> Raise (EProtocol TP_DEPTH_LIMIT) ->
  dserialize (binary cf) tt env n v = r.
Proof.
  intros cf env n v r He Hc E H1 H2.
  apply (serialize_agree q_depth eq_refl _ (binary_ag_w _ eq_refl cf) env He); try assumption.
  intros e -> ->. apply H2. reflexivity.
Qed.

Theorem C15_compact_write_agree : forall cf env n v r, table_schema env ->
  complete env v = true -> serialize (compact cf) c_init env n v = r ->
  r <> Diverge -> r <> Raise (EProtocol TP_DEPTH_LIMIT) ->
  dserialize (compact cf) c_init env n v = r.
Proof.
  intros cf env n v r He Hc E H1 H2.
  apply (serialize_agree q_depth eq_refl _ (compact_ag_w _ eq_refl cf) env He); try assumption.
  intros e -> ->. apply H2. reflexivity.
Qed.

Theorem C15_json_write_agree : forall limit env n v r, table_schema env ->
  complete env v = true -> serialize (json limit) j_init env n v = r ->
  r <> Diverge -> r <> Raise (EProtocol TP_DEPTH_LIMIT) ->
  dserialize (json limit) j_init env n v = r.
Proof.
  intros limit env n v r He Hc E H1 H2.
  apply (serialize_agree q_depth eq_refl _ (json_ag_w _ eq_refl limit) env He); try assumption.
  intros e -> ->. apply H2. reflexivity.
Qed.

(** * Encodings

    The table-driven writer produces the prescribed bytes, and the table-driven
    reader reads what any compatible version of the schema wrote, as the
    generated reader does (C01, C02, C03, C04). *)
Theorem C15_binary_write : forall cf SL CL env n v, table_schema env ->
  SL <= 2147483647 -> CL <= 2147483647 ->
  wf env SL CL (TStruct n) v = true -> (sdepth v <= 64)%nat ->
  dserialize (binary cf) tt env n v = Ok (sb_value env (TStruct n) v).
Proof. exact binary_dwrite. Qed.

Theorem C15_compact_write : forall cf SL CL env n v, table_schema env ->
  SL <= 2147483647 -> CL <= 2147483647 ->
  wf env SL CL (TStruct n) v = true -> (sdepth v <= 64)%nat ->
  dserialize (compact cf) c_init env n v = Ok (sc_value env (TStruct n) v).
Proof. exact compact_dwrite. Qed.

Theorem C15_json_write : forall limit SL CL env n v, table_schema env ->
  CL <= 9223372036854775807 ->
  wfd finite env SL CL (TStruct n) v = true -> (sdepth v <= 64)%nat ->
  dserialize (json limit) j_init env n v = Ok (sj_value env false (TStruct n) v).
Proof. exact json_dwrite. Qed.

Theorem C15_binary_read : forall cf SL CL envW envR R n m v tail, b_limits cf SL CL ->
  table_schema envW -> table_schema envR -> compat_env envW envR R -> R n m = true ->
  wf envW SL CL (TStruct n) v = true -> (sdepth v <= 64)%nat ->
  drop_ok envW envR utf8_valid SKIP_DEPTH (TStruct n) (TStruct m) v = true ->
  ddeserialize (binary cf) tt envR m (sb_value envW (TStruct n) v ++ tail)
  = Ok (proj envW envR (TStruct n) (TStruct m) v, tail).
Proof. exact binary_dread. Qed.

Theorem C15_compact_read : forall cf SL CL envW envR R n m v tail, c_limits cf SL CL ->
  table_schema envW -> table_schema envR -> compat_env envW envR R -> R n m = true ->
  wf envW SL CL (TStruct n) v = true -> (sdepth v <= 64)%nat ->
  drop_ok envW envR utf8_valid SKIP_DEPTH (TStruct n) (TStruct m) v = true ->
  ddeserialize (compact cf) c_init envR m (sc_value envW (TStruct n) v ++ tail)
  = Ok (proj envW envR (TStruct n) (TStruct m) v, tail).
Proof. exact compact_dread. Qed.

Theorem C15_json_read : forall limit SL CL envW envR R n m v tail, j_limits limit SL CL ->
  table_schema envW -> table_schema envR -> compat_env envW envR R -> R n m = true ->
  wfd finite envW SL CL (TStruct n) v = true -> (sdepth v <= 64)%nat ->
  drop_ok envW envR (fun _ => true) SKIP_DEPTH (TStruct n) (TStruct m) v = true ->
  ddeserialize (json limit) j_init envR m (sj_value envW false (TStruct n) v ++ tail)
  = Ok (proj envW envR (TStruct n) (TStruct m) v, tail).
Proof. exact json_dread. Qed.

(** * The defects

    A field [id - (last + 1)] on the wire, where [last] is the largest declared
    id, is unknown to the generated reader and is skipped; the table-driven
    reader stores it in the declared field [id], whichever that is. *)
Theorem C15_binary_negative_id : forall env n i ds d cf SL CL v tail,
  table_schema env -> nth_error env n = Some ds -> nth_error ds i = Some d ->
  base_ty (f_ty d) = true -> b_limits cf SL CL ->
  base_ok SL (f_ty d) v = true -> all_bin utf8_valid v = true ->
  let bs := sb_value [[mkfield (f_id d - (last_id ds + 1)) (f_ty d) false None]]
              (TStruct 0) (VStruct 0 [Some v]) in
  deserialize (binary cf) tt env n (bs ++ tail) = Ok (VStruct n (fresh ds), tail)
  /\ ddeserialize (binary cf) tt env n (bs ++ tail)
     = Ok (VStruct n (set_nth i (Some v) (fresh ds)), tail).
Proof.
  exact (fun env n i ds d cf SL CL v tail He E Hi Hb =>
    binary_negative env n i ds d He E Hi Hb cf SL CL v tail).
Qed.

Theorem C15_compact_negative_id : forall env n i ds d cf SL CL v tail,
  table_schema env -> nth_error env n = Some ds -> nth_error ds i = Some d ->
  base_ty (f_ty d) = true -> c_limits cf SL CL ->
  base_ok SL (f_ty d) v = true -> all_bin utf8_valid v = true ->
  let bs := sc_value [[mkfield (f_id d - (last_id ds + 1)) (f_ty d) false None]]
              (TStruct 0) (VStruct 0 [Some v]) in
  deserialize (compact cf) c_init env n (bs ++ tail) = Ok (VStruct n (fresh ds), tail)
  /\ ddeserialize (compact cf) c_init env n (bs ++ tail)
     = Ok (VStruct n (set_nth i (Some v) (fresh ds)), tail).
Proof.
  exact (fun env n i ds d cf SL CL v tail He E Hi Hb =>
    compact_negative env n i ds d He E Hi Hb cf SL CL v tail).
Qed.

(** Chains of nested structs of every length are written and read by the
    table-driven code; from 64 links on the generated code refuses them. *)
Theorem C15_binary_no_depth_limit : forall cf SL CL N tail, b_limits cf SL CL ->
  exists bs, dserialize (binary cf) tt rec_env 0 (chain N) = Ok bs
    /\ ddeserialize (binary cf) tt rec_env 0 (bs ++ tail) = Ok (chain N, tail)
    /\ ((64 <= N)%nat ->
        serialize (binary cf) tt rec_env 0 (chain N) = Raise (EProtocol TP_DEPTH_LIMIT)
        /\ deserialize (binary cf) tt rec_env 0 (bs ++ tail)
           = Raise (EProtocol TP_DEPTH_LIMIT)).
Proof.
  intros cf SL CL N tail Hl. destruct (binary_chain cf SL CL N tail Hl) as [H1 H2].
  exists (sb_value rec_env (TStruct 0) (chain N)). split; [exact H1|]. split; [exact H2|].
  intros HN. assert (Hd : (64 < sdepth (chain N))%nat) by (rewrite chain_depth; lia).
  destruct Hl as (L1 & L2 & L3). split.
  - apply (serialize_deep_b cf SL CL); try assumption; [apply rec_env_ok|apply chain_wf].
  - apply (deserialize_deep_b cf SL CL); try assumption.
    + apply rec_env_ok.
    + reflexivity.
    + repeat split; assumption || apply L3.
    + apply chain_wf.
Qed.

Theorem C15_compact_no_depth_limit : forall cf SL CL N tail, c_limits cf SL CL ->
  exists bs, dserialize (compact cf) c_init rec_env 0 (chain N) = Ok bs
    /\ ddeserialize (compact cf) c_init rec_env 0 (bs ++ tail) = Ok (chain N, tail)
    /\ ((64 <= N)%nat ->
        serialize (compact cf) c_init rec_env 0 (chain N) = Raise (EProtocol TP_DEPTH_LIMIT)
        /\ deserialize (compact cf) c_init rec_env 0 (bs ++ tail)
           = Raise (EProtocol TP_DEPTH_LIMIT)).
Proof.
  intros cf SL CL N tail Hl. destruct (compact_chain cf SL CL N tail Hl) as [H1 H2].
  exists (sc_value rec_env (TStruct 0) (chain N)). split; [exact H1|]. split; [exact H2|].
  intros HN. assert (Hd : (64 < sdepth (chain N))%nat) by (rewrite chain_depth; lia).
  destruct Hl as (L1 & L2 & L3). split.
  - apply (serialize_deep_c cf SL CL); try assumption; [apply rec_env_ok|apply chain_wf].
  - apply (deserialize_deep_c cf SL CL); try assumption.
    + apply rec_env_ok.
    + reflexivity.
    + repeat split; assumption || apply L3.
    + apply chain_wf.
Qed.

(** So agreement on every input is false, in both directions of transfer. *)
Theorem C15_read_agree_refuted : exists env n buf, table_schema env
  /\ deserialize (binary bdefault) tt env n buf
     <> ddeserialize (binary bdefault) tt env n buf.
Proof.
  exists [[mkfield 1 TI32 false None]], O, [x08; xff; xff; x00; x00; x00; x07; x00].
  split; [|vm_compute; discriminate].
  intros [|k] ds E; [|destruct k; discriminate]. injection E as <-.
  split; [repeat constructor|]. intros d [<-|[]]. cbn. lia.
Qed.

(** The generated writer checks that required fields are set; the table-driven
    one writes an object its generated twin refuses.  A class with a negative
    field id has an empty table, so its table-driven writer writes no field at
    all. *)
Theorem C15_write_agree_refuted : exists env n v bs, table_schema env
  /\ serialize (binary bdefault) tt env n v = Raise (EProtocol TP_UNKNOWN)
  /\ dserialize (binary bdefault) tt env n v = Ok bs.
Proof.
  exists [[mkfield 1 TI32 true None]], O, (VStruct 0 [None]), [x00].
  split; [|split; reflexivity].
  intros [|k] ds E; [|destruct k; discriminate]. injection E as <-.
  split; [repeat constructor|]. intros d [<-|[]]. cbn. lia.
Qed.

Theorem C15_negative_schema_writes_nothing : forall cf d ds x fs,
  f_id d < 0 -> dserialize (binary cf) tt [d :: ds] 0 (VStruct 0 (x :: fs)) = Ok [x00].
Proof.
  intros cf d ds x fs Hd. unfold dserialize, dwrite_struct. cbn [dwrite_value nth_error].
  replace (thrift_spec (d :: ds)) with (@nil (option (nat * fielddef))).
  - reflexivity.
  - unfold thrift_spec. replace (0 <=? f_id d) with false by lia. reflexivity.
Qed.

(** * Non-trivial cases *)

(** A tree of structs satisfies the hypotheses of the agreement theorems. *)
Example C15_ex_agree : table_schema (firstn 1 ex_env)
  /\ deserialize (checked (binary bdefault)) tt (firstn 1 ex_env) 0
       (sb_value ex_env (TStruct 0) ex_tree) = Ok (ex_tree, [])
  /\ complete ex_env ex_tree = true
  /\ dserialize (binary bdefault) tt (firstn 1 ex_env) 0 ex_tree
     = Ok (sb_value ex_env (TStruct 0) ex_tree).
Proof.
  split; [|vm_compute; repeat split].
  intros [|k] ds E; [|destruct k; discriminate]. injection E as <-.
  split; [repeat constructor|]. intros d [<-|[<-|[<-|[]]]]; cbn; lia.
Qed.

(** One exception reached by both: a list announcing three elements and
    holding one. *)
Example C15_ex_agree_raise :
  deserialize (checked (binary bdefault)) tt [[mkfield 1 (TList TI32) false None]] 0
    [x0f; x00; x01; x08; x00; x00; x00; x03; x00; x00; x00; x07] = Raise EEOFError.
Proof. reflexivity. Qed.

Example C15_ex_negative :
  ddeserialize (binary bdefault) tt
    [[mkfield 1 TI32 false None; mkfield 4 TString false None]] 0
    [x08; xff; xfc; x00; x00; x00; x07; x00]
  = Ok (VStruct 0 [Some (VInt 7); None], []).
Proof. reflexivity. Qed.

(** A JSON list announcing a negative size: empty for the generated reader,
    ValueError (from islice) for the table-driven one. *)
Example C15_ex_json_negative_size :
  let buf := map (fun z => z2b z)
    [123;34;49;34;58;123;34;108;115;116;34;58;91;34;105;51;50;34;44;45;49;93;125;125] in
  deserialize (json None) j_init [[mkfield 1 (TList TI32) false None]] 0 buf
  = Ok (VStruct 0 [Some (VList [])], [])
  /\ ddeserialize (json None) j_init [[mkfield 1 (TList TI32) false None]] 0 buf
     = Raise EValueError.
Proof. vm_compute. split; reflexivity. Qed.

(** Axioms used. *)
Print Assumptions C15_binary_read_agree.
Print Assumptions C15_compact_read_agree.
Print Assumptions C15_json_read_agree.
Print Assumptions C15_binary_write_agree.
Print Assumptions C15_compact_write_agree.
Print Assumptions C15_json_write_agree.
Print Assumptions C15_binary_write.
Print Assumptions C15_compact_write.
Print Assumptions C15_json_write.
Print Assumptions C15_binary_read.
Print Assumptions C15_compact_read.
Print Assumptions C15_json_read.
Print Assumptions C15_binary_negative_id.
Print Assumptions C15_compact_negative_id.
Print Assumptions C15_binary_no_depth_limit.
Print Assumptions C15_compact_no_depth_limit.
Print Assumptions C15_read_agree_refuted.
Print Assumptions C15_write_agree_refuted.
Print Assumptions C15_negative_schema_writes_nothing.
