(** C11, C12, C13, C14, C46: behaviour on arbitrary input, truncation, nesting
    depth, length limits, self-delimiting encodings. *)
From Coq Require Import ZArith List Bool Lia ZifyBool ZifyNat.
From Coq Require Import Init.Byte.
From Verif Require Import Base Bytes Utf8 Proto Spec Laws StructFacts
  Binary BinaryLaws SpecBinary Compact CompactLaws SpecCompact InstFacts
  FrameFacts TermFacts SafetyFacts PostFacts SafeInst DelimFacts Examples.
Import ListNotations.
Open Scope Z_scope.

(** * C11

    [F] bounds the iterations of every single loop and [k] the nesting of
    struct readers.  One more iteration than there are bytes is enough, and
    with that or any larger bound the result is the same and is never
    [Diverge]. *)

Theorem C11_binary_read_terminates : forall cf env n x i o d, 0 <= d <= 64 ->
  exists r s', r <> Diverge
    /\ forall F k, (length i < F)%nat -> 65 <= d + Z.of_nat k ->
         read_struct (binary cf) env k F n (mkst x i o d) = (r, s').
Proof. exact (fun cf => read_terminates (binary_term cf) (fun _ _ H => H)). Qed.

Theorem C11_compact_read_terminates : forall cf env n x i o d, 0 <= d <= 64 ->
  exists r s', r <> Diverge
    /\ forall F k, (length i < F)%nat -> 65 <= d + Z.of_nat k ->
         read_struct (compact cf) env k F n (mkst x i o d) = (r, s').
Proof. exact (fun cf => read_terminates (compact_term cf) (fun _ _ H => H)). Qed.

Theorem C11_binary_skip_terminates : forall cf k t x i o d,
  exists r s', r <> Diverge
    /\ forall F, (length i < F)%nat -> skip (binary cf) F k t (mkst x i o d) = (r, s').
Proof. exact (fun cf => skip_terminates (binary_term cf) (fun _ _ H => H)). Qed.

Theorem C11_compact_skip_terminates : forall cf k t x i o d,
  exists r s', r <> Diverge
    /\ forall F, (length i < F)%nat -> skip (compact cf) F k t (mkst x i o d) = (r, s').
Proof. exact (fun cf => skip_terminates (compact_term cf) (fun _ _ H => H)). Qed.

(** A reader that succeeds consumed a prefix of its input and leaves the rest
    as it was. *)
Theorem C11_binary_suffix : forall cf env n x buf v rest,
  deserialize (binary cf) x env n buf = Ok (v, rest) -> exists pre, buf = pre ++ rest.
Proof. exact (fun cf => deserialize_suffix unit (binary cf) (binary_reads cf)). Qed.
Theorem C11_compact_suffix : forall cf env n x buf v rest,
  deserialize (compact cf) x env n buf = Ok (v, rest) -> exists pre, buf = pre ++ rest.
Proof. exact (fun cf => deserialize_suffix cst (compact cf) (compact_reads cf)). Qed.

(** A list header announcing 2^31 - 1 elements in a message of nine bytes. *)
Example C11_ex :
  deserialize (binary bdefault) tt ex_env 0 [x0f; x00; x02; x0c; x7f; xff; xff; xff; x00]
  = Raise EEOFError
  /\ deserialize (compact cdefault) c_init ex_env 0 [x29; xfc; xff; xff; xff; xff; x07; x00]
  = Raise EEOFError.
Proof. split; vm_compute; reflexivity. Qed.

(** * C12 *)

Theorem C12_binary_truncated : forall env SL CL n,
  schema_ok env -> schema_closed env = true -> forall cfW cfR v p q,
  b_limits cfR SL CL -> wf env SL CL (TStruct n) v = true ->
  serialize (binary cfW) tt env n v = Ok (p ++ q) -> q <> [] ->
  exists e, deserialize (binary cfR) tt env n p = Raise e.
Proof. exact binary_truncated. Qed.

Theorem C12_compact_truncated : forall env SL CL n,
  schema_ok env -> schema_closed env = true -> forall cfW cfR v p q,
  c_limits cfR SL CL -> wf env SL CL (TStruct n) v = true ->
  serialize (compact cfW) c_init env n v = Ok (p ++ q) -> q <> [] ->
  exists e, deserialize (compact cfR) c_init env n p = Raise e.
Proof. exact compact_truncated. Qed.

(** More generally, input that is read to its last byte cannot be cut. *)
Theorem C12_binary_no_prefix : forall cf env n x p q v,
  deserialize (binary cf) x env n (p ++ q) = Ok (v, []) -> q <> [] ->
  exists e, deserialize (binary cf) x env n p = Raise e.
Proof.
  exact (fun cf env n x p q v => deserialize_prefix (binary_term cf) (fun _ _ H => H)
    (binary_stable cf) env n x p q v eq_refl).
Qed.
Theorem C12_compact_no_prefix : forall cf env n x p q v,
  deserialize (compact cf) x env n (p ++ q) = Ok (v, []) -> q <> [] ->
  exists e, deserialize (compact cf) x env n p = Raise e.
Proof.
  exact (fun cf env n x p q v => deserialize_prefix (compact_term cf) (fun _ _ H => H)
    (compact_stable cf) env n x p q v eq_refl).
Qed.

Example C12_ex : exists p q, q <> []
  /\ serialize (binary bdefault) tt ex_env 1 ex_all = Ok (p ++ q)
  /\ length p = 100%nat
  /\ deserialize (binary bdefault) tt ex_env 1 p = Raise EEOFError.
Proof.
  exists (firstn 100 (sb_value ex_env (TStruct 1) ex_all)),
         (skipn 100 (sb_value ex_env (TStruct 1) ex_all)).
  split; [vm_compute; discriminate|].
  split; [rewrite firstn_skipn; vm_compute; reflexivity|].
  split; vm_compute; reflexivity.
Qed.

(** * C13 *)

(** More than 64 structs nested in one another: refused by writer and reader. *)
Theorem C13_binary_write_deep : forall cf SL CL env n v, schema_ok env ->
  SL <= 2147483647 -> CL <= 2147483647 ->
  wf env SL CL (TStruct n) v = true -> (64 < sdepth v)%nat ->
  serialize (binary cf) tt env n v = Raise (EProtocol TP_DEPTH_LIMIT).
Proof. exact serialize_deep_b. Qed.
Theorem C13_compact_write_deep : forall cf SL CL env n v, schema_ok env ->
  SL <= 2147483647 -> CL <= 2147483647 ->
  wf env SL CL (TStruct n) v = true -> (64 < sdepth v)%nat ->
  serialize (compact cf) c_init env n v = Raise (EProtocol TP_DEPTH_LIMIT).
Proof. exact serialize_deep_c. Qed.
Theorem C13_binary_read_deep : forall cf SL CL env n v tail, schema_ok env ->
  schema_closed env = true -> b_limits cf SL CL ->
  wf env SL CL (TStruct n) v = true -> (64 < sdepth v)%nat ->
  deserialize (binary cf) tt env n (sb_value env (TStruct n) v ++ tail)
  = Raise (EProtocol TP_DEPTH_LIMIT).
Proof. exact deserialize_deep_b. Qed.
Theorem C13_compact_read_deep : forall cf SL CL env n v tail, schema_ok env ->
  schema_closed env = true -> c_limits cf SL CL ->
  wf env SL CL (TStruct n) v = true -> (64 < sdepth v)%nat ->
  deserialize (compact cf) c_init env n (sc_value env (TStruct n) v ++ tail)
  = Raise (EProtocol TP_DEPTH_LIMIT).
Proof. exact deserialize_deep_c. Qed.

(** The counter has its old value afterwards, whatever happened. *)
Theorem C13_binary_depth_restored : forall cf env k F n t v s,
  depth (snd (read_struct (binary cf) env k F n s)) = depth s
  /\ depth (snd (write_value (binary cf) env t v s)) = depth s.
Proof.
  exact (fun cf env k F n t v s =>
    conj (depth_restored_read unit (binary cf) (binary_reads cf) env k F n s)
         (depth_restored_write unit (binary cf) (binary_writes cf) env t v s)).
Qed.
Theorem C13_compact_depth_restored : forall cf env k F n t v s,
  depth (snd (read_struct (compact cf) env k F n s)) = depth s
  /\ depth (snd (write_value (compact cf) env t v s)) = depth s.
Proof.
  exact (fun cf env k F n t v s =>
    conj (depth_restored_read cst (compact cf) (compact_reads cf) env k F n s)
         (depth_restored_write cst (compact cf) (compact_writes cf) env t v s)).
Qed.

(** With 64 structs open the next one is refused before anything is read or
    written, for every protocol. *)
Theorem C13_full_read : forall X (P : proto X) env k F n ds s,
  nth_error env n = Some ds -> 64 <= depth s ->
  read_struct P env (S k) F n s = (Raise (EProtocol TP_DEPTH_LIMIT), s).
Proof. exact depth_full_read. Qed.
Theorem C13_full_write : forall X (P : proto X) env n m fs ds s,
  nth_error env m = Some ds -> validate ds fs = true -> 64 <= depth s ->
  write_struct P env n (VStruct m fs) s = (Raise (EProtocol TP_DEPTH_LIMIT), s).
Proof. exact depth_full_write. Qed.

Definition chain_env : schema := [[mkfield 1 (TStruct 0) false None]].
Fixpoint chain (k : nat) : value :=
  match k with
  | O => VStruct 0 [None]
  | S j => VStruct 0 [Some (chain j)]
  end.

Example C13_ex : wf chain_env 10 10 (TStruct 0) (chain 64) = true
  /\ sdepth (chain 64) = 65%nat /\ schema_ok chain_env /\ schema_closed chain_env = true
  /\ serialize (binary bdefault) tt chain_env 0 (chain 64) = Raise (EProtocol TP_DEPTH_LIMIT)
  /\ (exists bs, serialize (binary bdefault) tt chain_env 0 (chain 63) = Ok bs).
Proof.
  split; [vm_compute; reflexivity|]. split; [vm_compute; reflexivity|].
  split; [apply schema_okb_ok; reflexivity|]. split; [reflexivity|].
  split; [vm_compute; reflexivity|]. eexists. vm_compute. reflexivity.
Qed.

(** * C14 *)

(** Nothing a reader returns exceeds the limits, at any nesting level.
    [b_slim cf] is the string limit (2^31 - 1 if none is set), [b_clim cf] the
    container limit; for compact they are 2^70 - 1 if not set. *)
Theorem C14_binary_limits : forall cf env n buf v rest,
  deserialize (binary cf) tt env n buf = Ok (v, rest) ->
  decoded env (fun t v => base_ok (b_slim cf) t v = true) (fun k => k <= b_clim cf)
    (TStruct n) v.
Proof. exact binary_decoded. Qed.
Theorem C14_compact_limits : forall cf x env n buf v rest,
  deserialize (compact cf) x env n buf = Ok (v, rest) ->
  decoded env (fun t v => c_base_ok (c_slim cf) t v = true) (fun k => k <= c_clim cf)
    (TStruct n) v.
Proof. exact compact_decoded. Qed.

(** The length is refused as soon as it has been read: nothing after it has
    been consumed. *)
Theorem C14_binary_string : forall cf l n tail o d,
  string_length_limit cf = Some l -> l < n -> 0 <= n <= 2147483647 ->
  b_readBinary cf (mkst tt (int32 n ++ tail) o d)
  = (Raise (ETransport TT_SIZE_LIMIT), mkst tt tail o d).
Proof. exact b_readBinary_big. Qed.
Theorem C14_binary_string_negative : forall cf n tail o d, -2147483648 <= n < 0 ->
  b_readBinary cf (mkst tt (int32 n ++ tail) o d)
  = (Raise (ETransport TT_NEGATIVE_SIZE), mkst tt tail o d).
Proof. exact b_readBinary_neg. Qed.
Theorem C14_binary_list : forall cf l b n tail o d,
  container_length_limit cf = Some l -> l < n -> 0 <= n <= 2147483647 ->
  b_readListBegin cf (mkst tt (b :: int32 n ++ tail) o d)
  = (Raise (ETransport TT_SIZE_LIMIT), mkst tt tail o d).
Proof. exact b_list_big. Qed.
Theorem C14_binary_list_negative : forall cf b n tail o d, -2147483648 <= n < 0 ->
  b_readListBegin cf (mkst tt (b :: int32 n ++ tail) o d)
  = (Raise (ETransport TT_NEGATIVE_SIZE), mkst tt tail o d).
Proof. exact b_list_neg. Qed.
Theorem C14_binary_map : forall cf l b1 b2 n tail o d,
  container_length_limit cf = Some l -> l < n -> 0 <= n <= 2147483647 ->
  b_readMapBegin cf (mkst tt (b1 :: b2 :: int32 n ++ tail) o d)
  = (Raise (ETransport TT_SIZE_LIMIT), mkst tt tail o d).
Proof. exact b_map_big. Qed.
Theorem C14_binary_map_negative : forall cf b1 b2 n tail o d, -2147483648 <= n < 0 ->
  b_readMapBegin cf (mkst tt (b1 :: b2 :: int32 n ++ tail) o d)
  = (Raise (ETransport TT_NEGATIVE_SIZE), mkst tt tail o d).
Proof. exact b_map_neg. Qed.
Theorem C14_compact_string : forall cf l n x tail o d,
  c_string_length_limit cf = Some l -> l < n -> 0 <= n < 2 ^ 70 ->
  state x = VALUE_READ \/ state x = CONTAINER_READ ->
  c_readBinary cf (mkst x (varint n ++ tail) o d)
  = (Raise (ETransport TT_SIZE_LIMIT), mkst x tail o d).
Proof. exact c_readBinary_big. Qed.
Theorem C14_compact_list : forall cf l t n x tail o d,
  c_container_length_limit cf = Some l -> l < n -> 0 <= n < 2 ^ 70 ->
  state x = VALUE_READ \/ state x = CONTAINER_READ ->
  c_readCollectionBegin cf (mkst x (z2b (240 + sc_type t) :: varint n ++ tail) o d)
  = (Raise (ETransport TT_SIZE_LIMIT), mkst x tail o d).
Proof. exact c_list_big. Qed.
Theorem C14_compact_map : forall cf l n x tail o d,
  c_container_length_limit cf = Some l -> l < n -> 0 <= n < 2 ^ 70 ->
  state x = VALUE_READ \/ state x = CONTAINER_READ ->
  c_readMapBegin cf (mkst x (varint n ++ tail) o d)
  = (Raise (ETransport TT_SIZE_LIMIT), mkst x tail o d).
Proof. exact c_map_big. Qed.

(** The name in an old-format header is read without a check. *)
Theorem C14_old_header_refuted : exists cf name tail,
  string_length_limit cf = Some 1 /\ (1 < length name)%nat
  /\ b_readMessageBegin cf (mkst tt (sb_message false name CALL 0 ++ tail) [] 0)
     = (Ok (name, CALL, 0), mkst tt tail [] 0).
Proof.
  exists (mkbconf false true (Some 1) None), [112; 105; 110; 103], [xff].
  repeat split; vm_compute; try reflexivity. lia.
Qed.

Example C14_ex : deserialize (binary (mkbconf false true (Some 3) (Some 3))) tt ex_env 1
    [x0b; x00; x16; x00; x00; x00; x04; x61; x61; x61; x61; x00]
  = Raise (ETransport TT_SIZE_LIMIT)
  /\ deserialize (compact (mkcconf (Some 3) (Some 3))) c_init ex_env 1
    [x08; x2c; x04; x61; x61; x61; x61; x00]
  = Raise (ETransport TT_SIZE_LIMIT).
Proof. split; vm_compute; reflexivity. Qed.

(** * C46 *)

Theorem C46_binary_self_delimiting : forall env SL CL n,
  schema_ok env -> schema_closed env = true -> SL <= 2147483647 -> CL <= 2147483647 ->
  forall cf v1 v2 b1 b2 t1 t2,
  wf env SL CL (TStruct n) v1 = true -> wf env SL CL (TStruct n) v2 = true ->
  serialize (binary cf) tt env n v1 = Ok b1 -> serialize (binary cf) tt env n v2 = Ok b2 ->
  b1 ++ t1 = b2 ++ t2 -> v1 = v2 /\ t1 = t2.
Proof. exact binary_delim. Qed.

Theorem C46_compact_self_delimiting : forall env SL CL n,
  schema_ok env -> schema_closed env = true -> SL <= 2147483647 -> CL <= 2147483647 ->
  forall cf v1 v2 b1 b2 t1 t2,
  wf env SL CL (TStruct n) v1 = true -> wf env SL CL (TStruct n) v2 = true ->
  serialize (compact cf) c_init env n v1 = Ok b1 ->
  serialize (compact cf) c_init env n v2 = Ok b2 ->
  b1 ++ t1 = b2 ++ t2 -> v1 = v2 /\ t1 = t2.
Proof. exact compact_delim. Qed.

Example C46_ex : exists b1 b2,
  serialize (compact cdefault) c_init ex_env 1 ex_all = Ok b1
  /\ serialize (compact cdefault) c_init ex_env 1 (VStruct 1 (repeat None 11)) = Ok b2
  /\ b1 <> b2 /\ wf ex_env 100 100 (TStruct 1) (VStruct 1 (repeat None 11)) = true.
Proof.
  eexists. eexists. split; [vm_compute; reflexivity|].
  split; [vm_compute; reflexivity|]. split; [discriminate|reflexivity].
Qed.

Print Assumptions C11_binary_read_terminates.
Print Assumptions C11_compact_read_terminates.
Print Assumptions C11_binary_skip_terminates.
Print Assumptions C11_compact_skip_terminates.
Print Assumptions C11_binary_suffix.
Print Assumptions C11_compact_suffix.
Print Assumptions C12_binary_truncated.
Print Assumptions C12_compact_truncated.
Print Assumptions C12_binary_no_prefix.
Print Assumptions C12_compact_no_prefix.
Print Assumptions C13_binary_write_deep.
Print Assumptions C13_compact_write_deep.
Print Assumptions C13_binary_read_deep.
Print Assumptions C13_compact_read_deep.
Print Assumptions C13_binary_depth_restored.
Print Assumptions C13_compact_depth_restored.
Print Assumptions C13_full_read.
Print Assumptions C13_full_write.
Print Assumptions C14_binary_limits.
Print Assumptions C14_compact_limits.
Print Assumptions C14_binary_string.
Print Assumptions C14_binary_string_negative.
Print Assumptions C14_binary_list.
Print Assumptions C14_binary_list_negative.
Print Assumptions C14_binary_map.
Print Assumptions C14_binary_map_negative.
Print Assumptions C14_compact_string.
Print Assumptions C14_compact_list.
Print Assumptions C14_compact_map.
Print Assumptions C14_old_header_refuted.
Print Assumptions C46_binary_self_delimiting.
Print Assumptions C46_compact_self_delimiting.
