(** The struct theorems for each protocol. *)
From Coq Require Import ZArith List Bool Lia.
From Coq Require Import Init.Byte.
From Verif Require Import Base Bytes Utf8 Proto Spec Laws RoundTrip StructFacts
  Binary BinaryLaws SpecBinary Compact CompactLaws SpecCompact WireFacts.
Import ListNotations.
Open Scope Z_scope.

Lemma wf_struct_in env SL CL n v : wf env SL CL (TStruct n) v = true ->
  (n < length env)%nat.
Proof.
  destruct v; try discriminate. cbn [wfd]. intros H.
  apply andb_prop in H as [_ H]. destruct (nth_error env n) eqn:E; [|discriminate].
  apply nth_error_Some. congruence.
Qed.

(** * Binary *)

Lemma binary_same_writers cf cf' : same_writers (binary cf) (binary cf').
Proof. repeat split; intros; destruct t, v; reflexivity. Qed.

Definition max_limits : Z := 2147483647.

Lemma bdefault_limits SL CL : SL <= 2147483647 -> CL <= 2147483647 ->
  b_limits bdefault SL CL.
Proof. intros. repeat split; auto. Qed.

Lemma binary_write cf SL CL env n v d i o : schema_ok env ->
  SL <= 2147483647 -> CL <= 2147483647 ->
  wf env SL CL (TStruct n) v = true -> 0 <= d -> d + Z.of_nat (sdepth v) <= 64 ->
  write_struct (binary cf) env n v (mkst tt i o d)
  = (Ok tt, mkst tt i (o ++ sb_value env (TStruct n) v) d).
Proof.
  intros Hok H1 H2 Hwf H0 Hd. unfold write_struct.
  rewrite (write_value_same _ _ env v (binary_same_writers cf bdefault)).
  set (L := binary_laws bdefault SL CL (bdefault_limits _ _ H1 H2)).
  destruct (write_enc L env Hok v d (TStruct n) tt H0 I Hwf Hd tt i o I)
    as ([] & E & _).
  rewrite <- (enc_binary_spec bdefault SL CL (bdefault_limits _ _ H1 H2)).
  exact E.
Qed.

Lemma binary_read cf SL CL envW envR R n m v tail o d F :
  b_limits cf SL CL ->
  schema_ok envW -> schema_ok envR -> compat_env envW envR R -> R n m = true ->
  wf envW SL CL (TStruct n) v = true -> 0 <= d -> d + Z.of_nat (sdepth v) <= 64 ->
  drop_ok envW envR utf8_valid SKIP_DEPTH (TStruct n) (TStruct m) v = true ->
  (length (sb_value envW (TStruct n) v) <= F)%nat ->
  read_struct (binary cf) envR DFUEL F m
    (mkst tt (sb_value envW (TStruct n) v ++ tail) o d)
  = (Ok (proj envW envR (TStruct n) (TStruct m) v), mkst tt tail o d).
Proof.
  intros Hl HW HR HC Hnm Hwf H0 Hd Hdr HF.
  set (L := binary_laws cf SL CL Hl).
  pose proof (enc_binary_spec cf SL CL Hl envW v (TStruct n)) as Ee.
  rewrite <- Ee in *.
  destruct (read_enc L envW envR R HW HR HC F v d (TStruct n) (TStruct m) tt DFUEL
     H0 Hnm I Hwf Hd ltac:(unfold DFUEL; lia) HF Hdr tail I tt _ o eq_refl)
    as ([] & i' & E & Hr).
  cbn in Hr. subst i'. exact E.
Qed.

Lemma binary_skip cf SL CL env t v tail o d F : b_limits cf SL CL ->
  schema_ok env -> wf env SL CL t v = true -> (vdepth v <= 64)%nat ->
  all_bin utf8_valid v = true -> (length (sb_value env t v) <= F)%nat ->
  skip (binary cf) F SKIP_DEPTH (code t)
    (mkst tt (sb_value env t v ++ tail) o d)
  = (Ok tt, mkst tt tail o d).
Proof.
  intros Hl Hok Hwf Hd Hb HF.
  set (L := binary_laws cf SL CL Hl).
  rewrite <- (enc_binary_spec cf SL CL Hl) in *.
  assert (Hp : rpos L tt t v) by (destruct t, v; exact I).
  assert (Ht : tailQ L t tail) by (destruct t; exact I).
  destruct (skip_enc L env Hok F v d SKIP_DEPTH t tt Hp Hwf Hd HF Hb tail Ht tt _ o
     eq_refl) as ([] & i' & E & Hr).
  cbn in Hr. subst i'. exact E.
Qed.

(** * Compact *)

Lemma compact_same_writers cf cf' : same_writers (compact cf) (compact cf').
Proof. repeat split; intros; destruct t, v; reflexivity. Qed.

Lemma cdefault_limits SL CL : SL <= 2147483647 -> CL <= 2147483647 ->
  c_limits cdefault SL CL.
Proof. intros. repeat split; auto. Qed.

(** A protocol object between messages. *)
Definition c_ready (x : cst) : Prop :=
  state x = CLEAR /\ structs x = [] /\ containers x = [].

Definition c_top (x : cst) : cpos := mkcpos KTop (last_fid x) [] [].

Lemma ready_wrep x : c_ready x -> c_wrep (c_top x) x.
Proof. intros (H1 & H2 & H3). repeat split; assumption. Qed.

Lemma wrep_ready c x : c_wrep (c_top c) x -> c_ready x /\ last_fid x = last_fid c.
Proof. intros (H1 & H2 & H3 & H4). repeat split; assumption. Qed.

Lemma ready_rrep x i : c_ready x -> c_rrep (c_top x) x i i.
Proof. intros (H1 & H2 & H3). repeat split; assumption. Qed.

Lemma rrep_ready c x i rest : c_rrep (c_top c) x i rest ->
  i = rest /\ c_ready x /\ last_fid x = last_fid c.
Proof. intros (H0 & H1 & H2 & H3 & H4 & _). repeat split; assumption. Qed.

Lemma compact_write cf SL CL env n v d x i o : schema_ok env ->
  SL <= 2147483647 -> CL <= 2147483647 ->
  wf env SL CL (TStruct n) v = true -> 0 <= d -> d + Z.of_nat (sdepth v) <= 64 ->
  c_ready x ->
  exists x', write_struct (compact cf) env n v (mkst x i o d)
             = (Ok tt, mkst x' i (o ++ sc_value env (TStruct n) v) d)
             /\ c_ready x' /\ last_fid x' = last_fid x.
Proof.
  intros Hok H1 H2 Hwf H0 Hd Hx. unfold write_struct.
  rewrite (write_value_same _ _ env v (compact_same_writers cf cdefault)).
  set (L := compact_laws cdefault SL CL (cdefault_limits _ _ H1 H2)).
  destruct (write_enc L env Hok v d (TStruct n) (c_top x) H0 I Hwf Hd x i o
             (ready_wrep x Hx)) as (x' & E & Hr).
  exists x'. split; [|exact (wrep_ready x x' Hr)].
  rewrite E. unfold L. rewrite enc_compact_spec by exact I. reflexivity.
Qed.

Lemma compact_read cf SL CL envW envR R n m v tail x o d F :
  c_limits cf SL CL ->
  schema_ok envW -> schema_ok envR -> compat_env envW envR R -> R n m = true ->
  wf envW SL CL (TStruct n) v = true -> 0 <= d -> d + Z.of_nat (sdepth v) <= 64 ->
  drop_ok envW envR utf8_valid SKIP_DEPTH (TStruct n) (TStruct m) v = true ->
  (length (sc_value envW (TStruct n) v) <= F)%nat -> c_ready x ->
  exists x', read_struct (compact cf) envR DFUEL F m
    (mkst x (sc_value envW (TStruct n) v ++ tail) o d)
  = (Ok (proj envW envR (TStruct n) (TStruct m) v), mkst x' tail o d)
    /\ c_ready x' /\ last_fid x' = last_fid x.
Proof.
  intros Hl HW HR HC Hnm Hwf H0 Hd Hdr HF Hx.
  set (L := compact_laws cf SL CL Hl).
  rewrite <- (enc_compact_spec cf SL CL Hl envW v (TStruct n) (c_top x) I) in *.
  destruct (read_enc L envW envR R HW HR HC F v d (TStruct n) (TStruct m) (c_top x)
     DFUEL H0 Hnm I Hwf Hd ltac:(unfold DFUEL; lia) HF Hdr tail I x _ o
     (ready_rrep x _ Hx)) as (x' & i' & E & Hr).
  apply rrep_ready in Hr as (-> & Hr). exists x'. split; [exact E|exact Hr].
Qed.

(** Inside a container, where a value can be skipped on its own. *)
Definition c_elem (x : cst) : Prop := state x = CONTAINER_READ.

Lemma compact_skip cf SL CL env t v tail l bf bv ss o d F : c_limits cf SL CL ->
  schema_ok env -> wf env SL CL t v = true -> (vdepth v <= 64)%nat ->
  all_bin utf8_valid v = true -> (length (sc_value env t v) <= F)%nat ->
  exists x', skip (compact cf) F SKIP_DEPTH (code t)
    (mkst (mkcst CONTAINER_READ l bf bv [(CLEAR, ss)] [VALUE_READ])
          (sc_value env t v ++ tail) o d)
  = (Ok tt, mkst x' tail o d)
  /\ state x' = CONTAINER_READ /\ last_fid x' = l
  /\ structs x' = [(CLEAR, ss)] /\ containers x' = [VALUE_READ].
Proof.
  intros Hl Hok Hwf Hd Hb HF.
  set (L := compact_laws cf SL CL Hl).
  set (c := mkcpos KE l [(KTop, ss)] [KV]).
  rewrite <- (enc_compact_spec cf SL CL Hl env v t c I) in *.
  assert (Hp : rpos L c t v) by (apply rpos_epos; reflexivity).
  assert (Ht : tailQ L t tail) by (destruct t; exact I).
  destruct (skip_enc L env Hok F v d SKIP_DEPTH t c Hp Hwf Hd HF Hb tail Ht
     (mkcst CONTAINER_READ l bf bv [(CLEAR, ss)] [VALUE_READ]) _ o
     ltac:(repeat split)) as (x' & i' & E & Hr).
  destruct Hr as (-> & R1 & R2 & R3 & R4 & _). exists x'.
  split; [exact E|]. repeat split; assumption.
Qed.

(** * Whole buffers *)

Lemma binary_serialize cf SL CL env n v : schema_ok env ->
  SL <= 2147483647 -> CL <= 2147483647 ->
  wf env SL CL (TStruct n) v = true -> (sdepth v <= 64)%nat ->
  serialize (binary cf) tt env n v = Ok (sb_value env (TStruct n) v).
Proof.
  intros. unfold serialize. rewrite (binary_write cf SL CL) by (eassumption || lia). reflexivity.
Qed.

Lemma compact_serialize cf SL CL env n v : schema_ok env ->
  SL <= 2147483647 -> CL <= 2147483647 ->
  wf env SL CL (TStruct n) v = true -> (sdepth v <= 64)%nat ->
  serialize (compact cf) c_init env n v = Ok (sc_value env (TStruct n) v).
Proof.
  intros. unfold serialize.
  destruct (compact_write cf SL CL env n v 0 c_init [] []) as (x' & E & _);
    try assumption; try lia; [repeat split|]. rewrite E. reflexivity.
Qed.

Lemma binary_deserialize cf SL CL envW envR R n m v tail : b_limits cf SL CL ->
  schema_ok envW -> schema_ok envR -> compat_env envW envR R -> R n m = true ->
  wf envW SL CL (TStruct n) v = true -> (sdepth v <= 64)%nat ->
  drop_ok envW envR utf8_valid SKIP_DEPTH (TStruct n) (TStruct m) v = true ->
  deserialize (binary cf) tt envR m (sb_value envW (TStruct n) v ++ tail)
  = Ok (proj envW envR (TStruct n) (TStruct m) v, tail).
Proof.
  intros. unfold deserialize.
  erewrite binary_read; try eassumption; try lia.
  - reflexivity.
  - rewrite app_length. lia.
Qed.

Lemma compact_deserialize cf SL CL envW envR R n m v tail : c_limits cf SL CL ->
  schema_ok envW -> schema_ok envR -> compat_env envW envR R -> R n m = true ->
  wf envW SL CL (TStruct n) v = true -> (sdepth v <= 64)%nat ->
  drop_ok envW envR utf8_valid SKIP_DEPTH (TStruct n) (TStruct m) v = true ->
  deserialize (compact cf) c_init envR m (sc_value envW (TStruct n) v ++ tail)
  = Ok (proj envW envR (TStruct n) (TStruct m) v, tail).
Proof.
  intros. unfold deserialize.
  destruct (compact_read cf SL CL envW envR R n m v tail c_init [] 0
    (S (length (sc_value envW (TStruct n) v ++ tail)))) as (x' & E & _);
    try assumption; try lia.
  - rewrite app_length. lia.
  - repeat split.
  - rewrite E. reflexivity.
Qed.

Lemma same_in env n : (n < length env)%nat -> same env n n = true.
Proof.
  intros H. unfold same. rewrite Nat.eqb_refl. apply Nat.ltb_lt in H. rewrite H.
  reflexivity.
Qed.

Lemma binary_round_trip cfW cfR SL CL env n v tail :
  schema_ok env -> schema_closed env = true -> b_limits cfR SL CL ->
  wf env SL CL (TStruct n) v = true -> (sdepth v <= 64)%nat ->
  exists bs, serialize (binary cfW) tt env n v = Ok bs
    /\ deserialize (binary cfR) tt env n (bs ++ tail)
       = Ok (with_defaults env (TStruct n) v, tail).
Proof.
  intros Hok Hc Hl Hwf Hd. eexists. split.
  - eapply binary_serialize; eauto; apply Hl.
  - erewrite binary_deserialize; try eassumption.
    + erewrite proj_with_defaults by eassumption. reflexivity.
    + eapply compat_env_same; eassumption.
    + apply same_in. eapply wf_struct_in; eassumption.
    + eapply drop_ok_same; eassumption.
Qed.

Lemma compact_round_trip cfW cfR SL CL env n v tail :
  schema_ok env -> schema_closed env = true -> c_limits cfR SL CL ->
  wf env SL CL (TStruct n) v = true -> (sdepth v <= 64)%nat ->
  exists bs, serialize (compact cfW) c_init env n v = Ok bs
    /\ deserialize (compact cfR) c_init env n (bs ++ tail)
       = Ok (with_defaults env (TStruct n) v, tail).
Proof.
  intros Hok Hc Hl Hwf Hd. eexists. split.
  - eapply compact_serialize; eauto; apply Hl.
  - erewrite compact_deserialize; try eassumption.
    + erewrite proj_with_defaults by eassumption. reflexivity.
    + eapply compat_env_same; eassumption.
    + apply same_in. eapply wf_struct_in; eassumption.
    + eapply drop_ok_same; eassumption.
Qed.

(** * Skipping a byte string that is not UTF-8 *)

Lemma binary_skip_bad cf SL CL b tail o d F : b_limits cf SL CL ->
  len_le b SL = true -> utf8_valid b = false ->
  skip (binary cf) F SKIP_DEPTH T_STRING
    (mkst tt (sb_value [] TBinary (VBin b) ++ tail) o d)
  = (Raise EUnicodeDecode, mkst tt tail o d).
Proof.
  intros Hl Hb Hu. change T_STRING with (code TBinary).
  unfold SKIP_DEPTH. rewrite skip_code.
  cbn [binary readString sb_value]. unfold sb_binary. rewrite <- be4.
  unfold b_readString, bind.
  rewrite (b_readBinary_ok cf SL CL Hl) by assumption.
  unfold utf8_valid in Hu. unfold decode_utf8.
  destruct (utf8_decode b); [discriminate|]. reflexivity.
Qed.

Lemma compact_skip_bad cf SL CL b tail x o d F : c_limits cf SL CL ->
  len_le b SL = true -> utf8_valid b = false ->
  state x = VALUE_READ \/ state x = CONTAINER_READ ->
  skip (compact cf) F SKIP_DEPTH T_STRING
    (mkst x (sc_value [] TBinary (VBin b) ++ tail) o d)
  = (Raise EUnicodeDecode, mkst x tail o d).
Proof.
  intros Hl Hb Hu Hx. change T_STRING with (code TBinary).
  unfold SKIP_DEPTH. rewrite skip_code.
  cbn [compact readString sc_value]. unfold sc_binary.
  assert (R : c_readString cf
     (mkst x ((varint (Z.of_nat (length b)) ++ b) ++ tail) o d)
     = (Raise EUnicodeDecode, mkst x tail o d)).
  { unfold c_readString, c_readBinary, reader.
    assert (A : assert_state [VALUE_READ; CONTAINER_READ]
      (mkst x ((varint (Z.of_nat (length b)) ++ b) ++ tail) o d)
      = (Ok tt, mkst x ((varint (Z.of_nat (length b)) ++ b) ++ tail) o d)).
    { unfold assert_state, get_px, bind, assert_. cbn [px].
      destruct Hx as [-> | ->]; reflexivity. }
    unfold bind at 1. unfold bind at 1. rewrite A.
    rewrite (readBinary__ok cf SL CL Hl) by assumption.
    unfold utf8_valid in Hu. unfold decode_utf8.
    destruct (utf8_decode b); [discriminate|]. reflexivity. }
  unfold bind. rewrite R. reflexivity.
Qed.
