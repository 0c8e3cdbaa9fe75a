(** C01, C02, C04, C05, C09, C10: structs through the binary and compact
    protocols. *)
From Coq Require Import ZArith List Bool Lia.
From Coq Require Import Init.Byte.
From Verif Require Import Base Bytes Utf8 Proto Spec Laws StructFacts Binary
  BinaryLaws SpecBinary Compact CompactLaws SpecCompact InstFacts Examples.
Import ListNotations.
Open Scope Z_scope.

(** * C01 *)

Theorem C01_binary_round_trip : forall cfW cfR SL CL env n v tail,
  schema_ok env -> schema_closed env = true -> b_limits cfR SL CL ->
  wf env SL CL (TStruct n) v = true -> (sdepth v <= 64)%nat ->
  exists bs, serialize (binary cfW) tt env n v = Ok bs
    /\ deserialize (binary cfR) tt env n (bs ++ tail)
       = Ok (with_defaults env (TStruct n) v, tail).
Proof. exact binary_round_trip. Qed.

Theorem C01_binary_round_trip_equal : forall cfW cfR SL CL env n v tail,
  schema_ok env -> schema_closed env = true -> b_limits cfR SL CL ->
  wf env SL CL (TStruct n) v = true -> (sdepth v <= 64)%nat ->
  no_missing_default env (TStruct n) v = true ->
  exists bs, serialize (binary cfW) tt env n v = Ok bs
    /\ deserialize (binary cfR) tt env n (bs ++ tail) = Ok (v, tail).
Proof.
  exact (fun cfW cfR SL CL env n v tail H1 H2 H3 H4 H5 H6 =>
    eq_rect _ (fun w => exists bs, serialize (binary cfW) tt env n v = Ok bs
      /\ deserialize (binary cfR) tt env n (bs ++ tail) = Ok (w, tail))
      (binary_round_trip cfW cfR SL CL env n v tail H1 H2 H3 H4 H5) _
      (with_defaults_id env v (TStruct n) SL CL H4 H6)).
Qed.

Example C01_ex : schema_ok ex_env /\ schema_closed ex_env = true
  /\ b_limits bdefault 100 100 /\ wf ex_env 100 100 (TStruct 1) ex_all = true
  /\ (sdepth ex_all <= 64)%nat
  /\ no_missing_default ex_env (TStruct 0) ex_tree = true.
Proof.
  exact (conj ex_env_ok (conj eq_refl (conj (bdefault_limits 100 100 ltac:(lia)
    ltac:(lia)) (conj eq_refl (conj ex_all_depth eq_refl))))).
Qed.

(** * C02 *)

Theorem C02_compact_round_trip : forall cfW cfR SL CL env n v tail,
  schema_ok env -> schema_closed env = true -> c_limits cfR SL CL ->
  wf env SL CL (TStruct n) v = true -> (sdepth v <= 64)%nat ->
  exists bs, serialize (compact cfW) c_init env n v = Ok bs
    /\ deserialize (compact cfR) c_init env n (bs ++ tail)
       = Ok (with_defaults env (TStruct n) v, tail).
Proof. exact compact_round_trip. Qed.

Theorem C02_compact_round_trip_equal : forall cfW cfR SL CL env n v tail,
  schema_ok env -> schema_closed env = true -> c_limits cfR SL CL ->
  wf env SL CL (TStruct n) v = true -> (sdepth v <= 64)%nat ->
  no_missing_default env (TStruct n) v = true ->
  exists bs, serialize (compact cfW) c_init env n v = Ok bs
    /\ deserialize (compact cfR) c_init env n (bs ++ tail) = Ok (v, tail).
Proof.
  exact (fun cfW cfR SL CL env n v tail H1 H2 H3 H4 H5 H6 =>
    eq_rect _ (fun w => exists bs, serialize (compact cfW) c_init env n v = Ok bs
      /\ deserialize (compact cfR) c_init env n (bs ++ tail) = Ok (w, tail))
      (compact_round_trip cfW cfR SL CL env n v tail H1 H2 H3 H4 H5) _
      (with_defaults_id env v (TStruct n) SL CL H4 H6)).
Qed.

(** The protocol object is ready for the next struct after writing one ... *)
Theorem C02_compact_write_reusable : forall cf SL CL env n v d x i o,
  schema_ok env -> SL <= 2147483647 -> CL <= 2147483647 ->
  wf env SL CL (TStruct n) v = true -> 0 <= d -> d + Z.of_nat (sdepth v) <= 64 ->
  c_ready x ->
  exists x', write_struct (compact cf) env n v (mkst x i o d)
             = (Ok tt, mkst x' i (o ++ sc_value env (TStruct n) v) d)
             /\ c_ready x' /\ last_fid x' = last_fid x.
Proof. exact compact_write. Qed.

(** ... and after reading one. *)
Theorem C02_compact_read_reusable :
  forall cf SL CL envW envR R n m v tail x o d F, c_limits cf SL CL ->
  schema_ok envW -> schema_ok envR -> compat_env envW envR R -> R n m = true ->
  wf envW SL CL (TStruct n) v = true -> 0 <= d -> d + Z.of_nat (sdepth v) <= 64 ->
  drop_ok envW envR utf8_valid SKIP_DEPTH (TStruct n) (TStruct m) v = true ->
  (length (sc_value envW (TStruct n) v) <= F)%nat -> c_ready x ->
  exists x', read_struct (compact cf) envR DFUEL F m
    (mkst x (sc_value envW (TStruct n) v ++ tail) o d)
  = (Ok (proj envW envR (TStruct n) (TStruct m) v), mkst x' tail o d)
    /\ c_ready x' /\ last_fid x' = last_fid x.
Proof. exact compact_read. Qed.

Example C02_ex : c_ready c_init /\ c_limits cdefault 100 100
  /\ deserialize (compact cdefault) c_init ex_env 0
       (sc_value ex_env (TStruct 0) ex_tree ++ [xff]) = Ok (ex_tree, [xff]).
Proof.
  split; [repeat split|]. split; [repeat split; lia|vm_compute; reflexivity].
Qed.

(** * C04, C05 *)

Theorem C04_binary_wire_format : forall cf SL CL env n v,
  schema_ok env -> SL <= 2147483647 -> CL <= 2147483647 ->
  wf env SL CL (TStruct n) v = true -> (sdepth v <= 64)%nat ->
  serialize (binary cf) tt env n v = Ok (sb_value env (TStruct n) v).
Proof. exact binary_serialize. Qed.

Theorem C05_compact_wire_format : forall cf SL CL env n v,
  schema_ok env -> SL <= 2147483647 -> CL <= 2147483647 ->
  wf env SL CL (TStruct n) v = true -> (sdepth v <= 64)%nat ->
  serialize (compact cf) c_init env n v = Ok (sc_value env (TStruct n) v).
Proof. exact compact_serialize. Qed.

(** The specification on a small tree, against bytes worked out by hand. *)
Example C04_ex : sb_value ex_env (TStruct 0)
    (VStruct 0 [Some (VInt 258); None; Some (VBool true)])
  = [x08; x00; x01; x00; x00; x01; x02;  x02; x00; x03; x01;  x00].
Proof. reflexivity. Qed.
Example C05_ex : sc_value ex_env (TStruct 0)
    (VStruct 0 [Some (VInt 258); None; Some (VBool true)])
  = [x15; x84; x04;  x21;  x00].
Proof. reflexivity. Qed.

(** * C09 *)

Theorem C09_binary_schema_evolution : forall cf SL CL envW envR R n m v tail,
  b_limits cf SL CL ->
  schema_ok envW -> schema_ok envR -> compat_env envW envR R -> R n m = true ->
  wf envW SL CL (TStruct n) v = true -> (sdepth v <= 64)%nat ->
  drop_ok envW envR utf8_valid SKIP_DEPTH (TStruct n) (TStruct m) v = true ->
  deserialize (binary cf) tt envR m (sb_value envW (TStruct n) v ++ tail)
  = Ok (proj envW envR (TStruct n) (TStruct m) v, tail).
Proof. exact binary_deserialize. Qed.

Theorem C09_compact_schema_evolution : forall cf SL CL envW envR R n m v tail,
  c_limits cf SL CL ->
  schema_ok envW -> schema_ok envR -> compat_env envW envR R -> R n m = true ->
  wf envW SL CL (TStruct n) v = true -> (sdepth v <= 64)%nat ->
  drop_ok envW envR utf8_valid SKIP_DEPTH (TStruct n) (TStruct m) v = true ->
  deserialize (compact cf) c_init envR m (sc_value envW (TStruct n) v ++ tail)
  = Ok (proj envW envR (TStruct n) (TStruct m) v, tail).
Proof. exact compact_deserialize. Qed.

Example C09_ex : compat_env ex_env ex_old ex_rel /\ ex_rel 1 1 = true
  /\ drop_ok ex_env ex_old utf8_valid SKIP_DEPTH (TStruct 1) (TStruct 1) ex_all
     = true
  /\ proj ex_env ex_old (TStruct 1) (TStruct 1) ex_all =
     VStruct 1 [Some (VInt (-128)); None; Some (VStr [63]); None;
                Some (VDouble 4607182418800017408); Some (VInt 9)].
Proof. exact (conj ex_compat (conj eq_refl (conj eq_refl eq_refl))). Qed.

(** * C10 *)

Theorem C10_binary_skip_exact : forall cf SL CL env t v tail o d F,
  b_limits cf SL CL -> schema_ok env -> wf env SL CL t v = true ->
  (vdepth v <= 64)%nat -> all_bin utf8_valid v = true ->
  (length (sb_value env t v) <= F)%nat ->
  skip (binary cf) F SKIP_DEPTH (code t)
    (mkst tt (sb_value env t v ++ tail) o d)
  = (Ok tt, mkst tt tail o d).
Proof. exact binary_skip. Qed.

Theorem C10_compact_skip_exact : forall cf SL CL env t v tail l bf bv ss o d F,
  c_limits cf SL CL -> schema_ok env -> wf env SL CL t v = true ->
  (vdepth v <= 64)%nat -> all_bin utf8_valid v = true ->
  (length (sc_value env t v) <= F)%nat ->
  exists x', skip (compact cf) F SKIP_DEPTH (code t)
    (mkst (mkcst CONTAINER_READ l bf bv [(CLEAR, ss)] [VALUE_READ])
          (sc_value env t v ++ tail) o d)
  = (Ok tt, mkst x' tail o d)
  /\ state x' = CONTAINER_READ /\ last_fid x' = l
  /\ structs x' = [(CLEAR, ss)] /\ containers x' = [VALUE_READ].
Proof. exact compact_skip. Qed.

Example C10_ex : wf ex_env 100 100 (TStruct 1) ex_all = true
  /\ (vdepth ex_all <= 64)%nat /\ all_bin utf8_valid ex_all = true.
Proof. split; [reflexivity|]. split; [vm_compute; lia|reflexivity]. Qed.

(** The limitation: a binary that is not UTF-8 cannot be skipped. *)
Theorem C10_binary_skip_non_utf8 : forall cf SL CL b tail o d F,
  b_limits cf SL CL -> len_le b SL = true -> utf8_valid b = false ->
  skip (binary cf) F SKIP_DEPTH T_STRING
    (mkst tt (sb_value [] TBinary (VBin b) ++ tail) o d)
  = (Raise EUnicodeDecode, mkst tt tail o d).
Proof. exact binary_skip_bad. Qed.

Theorem C10_compact_skip_non_utf8 : forall cf SL CL b tail x o d F,
  c_limits cf SL CL -> len_le b SL = true -> utf8_valid b = false ->
  state x = VALUE_READ \/ state x = CONTAINER_READ ->
  skip (compact cf) F SKIP_DEPTH T_STRING
    (mkst x (sc_value [] TBinary (VBin b) ++ tail) o d)
  = (Raise EUnicodeDecode, mkst x tail o d).
Proof. exact compact_skip_bad. Qed.

(** So the unconditional claim is false. *)
Theorem C10_skip_refuted : exists b,
  wf [] 100 100 TBinary (VBin b) = true
  /\ skip (binary bdefault) 100 SKIP_DEPTH (code TBinary)
       (mkst tt (sb_value [] TBinary (VBin b)) [] 0)
     = (Raise EUnicodeDecode, mkst tt [] [] 0).
Proof. exact (ex_intro _ [xff] (conj eq_refl eq_refl)). Qed.

Print Assumptions C01_binary_round_trip.
Print Assumptions C01_binary_round_trip_equal.
Print Assumptions C02_compact_round_trip.
Print Assumptions C02_compact_round_trip_equal.
Print Assumptions C02_compact_write_reusable.
Print Assumptions C02_compact_read_reusable.
Print Assumptions C04_binary_wire_format.
Print Assumptions C05_compact_wire_format.
Print Assumptions C09_binary_schema_evolution.
Print Assumptions C09_compact_schema_evolution.
Print Assumptions C10_binary_skip_exact.
Print Assumptions C10_compact_skip_exact.
Print Assumptions C10_binary_skip_non_utf8.
Print Assumptions C10_compact_skip_non_utf8.
Print Assumptions C10_skip_refuted.
