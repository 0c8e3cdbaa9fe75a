(** C64: whatever a reader accepts can be passed on. *)
From Coq Require Import ZArith List Bool Lia ZifyBool ZifyNat Sorted.
From Coq Require Import Init.Byte.
From Verif Require Import Base Bytes Utf8 Proto Spec RoundTrip StructFacts PostFacts
  Binary SpecBinary BinaryLaws Compact SpecCompact CompactLaws InstFacts
  SafeInst JsonText Json JsonFacts JsonLaws SpecJson Dynamic SpecDynamic DynamicRead Ext ExtFacts
  ExtRead SpecExt ExtReadGen ExtReadBinary ExtReadFacts RelayFacts RelayInst Examples
  PropsStruct PropsJson PropsExt PropsExtRead.
Import ListNotations.
Open Scope Z_scope.

(** * Objects that are passed on

    [relax env] is [env] with nothing required; [schema_keyed]: set elements
    and map keys have hashable types; [defaults_ok]: defaults are objects of
    their field's type, without structs; [complete]: required attributes are
    set, at every depth (RelayFacts.v). *)

(** ** Every object a reader returns is an object of the schema

    except that required attributes may be missing, and in compact integers of
    up to 70 bits may be found ([c_base_ok], the defect of C43).  Attributes
    that were not sent have their default.  Sizes are within the configured
    limits and the length of the input. *)
Theorem C64_binary_typed : forall cf SL CL env n buf v rest,
  schema_keyed env = true -> defaults_ok env SL CL = true ->
  Z.min (b_slim cf) (Z.of_nat (length buf)) <= SL ->
  Z.min (b_clim cf) (Z.of_nat (length buf) + 1) <= CL ->
  deserialize (binary cf) tt env n buf = Ok (v, rest) ->
  wf (relax env) SL CL (TStruct n) v = true
  /\ no_missing_default env (TStruct n) v = true /\ (sdepth v <= 64)%nat.
Proof. exact binary_typed. Qed.

Theorem C64_compact_typed : forall cf SL CL env n buf v rest x,
  schema_keyed env = true -> defaults_ok env SL CL = true ->
  Z.min (c_slim cf) (Z.of_nat (length buf)) <= SL ->
  Z.min (c_clim cf) (Z.of_nat (length buf) + 1) <= CL ->
  deserialize (compact cf) x env n buf = Ok (v, rest) ->
  wfb (c_base_ok SL) (relax env) CL (TStruct n) v = true
  /\ no_missing_default env (TStruct n) v = true /\ (sdepth v <= 64)%nat.
Proof. exact compact_typed. Qed.

(** ** Passing on

    The object can be written, and a reader gets the same object. *)
Definition passes_on (env : schema) (SL CL : Z) (n : nat) (v : value) : Prop :=
  (forall cfW cfR tail, b_limits cfR SL CL ->
     exists bs, serialize (binary cfW) tt env n v = Ok bs
       /\ deserialize (binary cfR) tt env n (bs ++ tail) = Ok (v, tail))
  /\ (forall cfW cfR tail, c_limits cfR SL CL ->
     exists bs, serialize (compact cfW) c_init env n v = Ok bs
       /\ deserialize (compact cfR) c_init env n (bs ++ tail) = Ok (v, tail)).

Lemma passes env SL CL n v : schema_ok env -> schema_closed env = true ->
  wf env SL CL (TStruct n) v = true -> no_missing_default env (TStruct n) v = true ->
  (sdepth v <= 64)%nat -> passes_on env SL CL n v.
Proof.
  intros H1 H2 H3 H4 H5. split; intros cfW cfR tail HL.
  - apply (C01_binary_round_trip_equal cfW cfR SL CL); assumption.
  - apply (C02_compact_round_trip_equal cfW cfR SL CL); assumption.
Qed.

(** What was read in binary can be written exactly when it is complete. *)
Theorem C64_binary_relay : forall cf SL CL env n buf v rest,
  schema_ok env -> schema_closed env = true ->
  schema_keyed env = true -> defaults_ok env SL CL = true ->
  SL <= 2147483647 -> CL <= 2147483647 ->
  Z.min (b_slim cf) (Z.of_nat (length buf)) <= SL ->
  Z.min (b_clim cf) (Z.of_nat (length buf) + 1) <= CL ->
  deserialize (binary cf) tt env n buf = Ok (v, rest) ->
  (complete env (TStruct n) v = true -> passes_on env SL CL n v)
  /\ (complete env (TStruct n) v = false -> forall bs,
        (forall cfW, serialize (binary cfW) tt env n v <> Ok bs)
        /\ (forall cfW, serialize (compact cfW) c_init env n v <> Ok bs)).
Proof.
  intros cf SL CL env n buf v rest Hok Hcl Hk Hd H1 H2 HS HC E.
  destruct (binary_typed cf SL CL env n buf v rest Hk Hd HS HC E) as (Hw & Hn & Hdp).
  split; intros Hc.
  - apply passes; try assumption. rewrite <- wfb_wf.
    rewrite <- wfb_wf in Hw. revert Hw Hc. apply wfb_fits. auto.
  - assert (G : fits env writable_base (TStruct n) v = true -> False).
    { intros G. apply (fits_mono _ (fun _ _ => true)) in G; [|reflexivity].
      unfold complete in Hc. congruence. }
    intros bs. split; intros cfW Es; apply G.
    + eapply binary_fits, Es.
    + eapply compact_fits, Es.
Qed.

(** In compact an integer may also be wider than its type. *)
Theorem C64_compact_relay : forall cf SL CL env n buf v rest x,
  schema_ok env -> schema_closed env = true ->
  schema_keyed env = true -> defaults_ok env SL CL = true ->
  SL <= 2147483647 -> CL <= 2147483647 ->
  Z.min (c_slim cf) (Z.of_nat (length buf)) <= SL ->
  Z.min (c_clim cf) (Z.of_nat (length buf) + 1) <= CL ->
  deserialize (compact cf) x env n buf = Ok (v, rest) ->
  (fits env writable_base (TStruct n) v = true -> passes_on env SL CL n v)
  /\ (fits env writable_base (TStruct n) v = false -> forall bs,
        (forall cfW, serialize (binary cfW) tt env n v <> Ok bs)
        /\ (forall cfW, serialize (compact cfW) c_init env n v <> Ok bs)).
Proof.
  intros cf SL CL env n buf v rest x Hok Hcl Hk Hd H1 H2 HS HC E.
  destruct (compact_typed cf SL CL env n buf v rest x Hk Hd HS HC E) as (Hw & Hn & Hdp).
  split; intros Hc.
  - apply passes; try assumption. rewrite <- wfb_wf.
    revert Hw Hc. apply wfb_fits. apply c_base_writable.
  - intros bs. split; intros cfW Es.
    + apply binary_fits in Es. congruence.
    + apply compact_fits in Es. congruence.
Qed.

(** A reader accepts what is passed on of what it accepted: the configured
    limits stand in no one's way. *)
Theorem C64_same_reader : forall cf cfW env n buf v rest tail,
  schema_ok env -> schema_closed env = true -> schema_keyed env = true ->
  defaults_ok env (b_slim cf) (b_clim cf) = true ->
  deserialize (binary cf) tt env n buf = Ok (v, rest) ->
  complete env (TStruct n) v = true ->
  exists bs, serialize (binary cfW) tt env n v = Ok bs
    /\ deserialize (binary cf) tt env n (bs ++ tail) = Ok (v, tail).
Proof.
  intros cf cfW env n buf v rest tail Hok Hcl Hk Hd E Hc.
  assert (HL : b_limits cf (b_slim cf) (b_clim cf)).
  { unfold b_limits, b_slim, b_clim, size_bound, lim_ok.
    destruct (string_length_limit cf), (container_length_limit cf); repeat split; lia. }
  destruct HL as (L1 & L2 & L3).
  destruct (C64_binary_relay cf (b_slim cf) (b_clim cf) env n buf v rest Hok Hcl Hk Hd L1 L2
    ltac:(lia) ltac:(lia) E) as [H _].
  apply (proj1 (H Hc)). split; [exact L1|split; [exact L2|exact L3]].
Qed.

(** ** To JSON

    if the doubles are finite (C03). *)
Definition finite_doubles (env : schema) (t : ty) (v : value) : bool :=
  fits env (fun _ x => match x with VDouble d => finite d | _ => true end) t v.

Theorem C64_binary_to_json : forall cf SL CL env n buf v rest lW lR tail,
  schema_ok env -> schema_closed env = true ->
  schema_keyed env = true -> defaults_ok env SL CL = true ->
  Z.min (b_slim cf) (Z.of_nat (length buf)) <= SL ->
  Z.min (b_clim cf) (Z.of_nat (length buf) + 1) <= CL -> j_limits lR SL CL ->
  deserialize (binary cf) tt env n buf = Ok (v, rest) ->
  finite_doubles env (TStruct n) v = true ->
  exists bs, serialize (json lW) j_init env n v = Ok bs
    /\ deserialize (json lR) j_init env n (bs ++ tail) = Ok (v, tail).
Proof.
  intros cf SL CL env n buf v rest lW lR tail Hok Hcl Hk Hd HS HC HL E Hf.
  destruct (binary_typed cf SL CL env n buf v rest Hk Hd HS HC E) as (Hw & Hn & Hdp).
  apply (C03_json_round_trip_equal lW lR SL CL); try assumption.
  rewrite <- wfb_wf. rewrite <- wfb_wf in Hw. revert Hw Hf. apply wfb_fits.
  intros t w. destruct t, w; cbn [base_okd]; auto. intros H ->. exact H.
Qed.

(** ** Through the accelerated protocols

    which write the same bytes and read the same object. *)
Theorem C64_binary_to_accelerated : forall cf SL CL env n buf v rest bigW bigR sl cl tail,
  table_schema env -> schema_closed env = true ->
  schema_keyed env = true -> defaults_ok env SL CL = true ->
  Z.min (b_slim cf) (Z.of_nat (length buf)) <= SL ->
  Z.min (b_clim cf) (Z.of_nat (length buf) + 1) <= CL -> x_limits sl cl SL CL ->
  deserialize (binary cf) tt env n buf = Ok (v, rest) ->
  complete env (TStruct n) v = true ->
  exists bs bc,
    fast_serialize (cbinary bigW) tt env n v = Ok bs
    /\ serialize (binary cf) tt env n v = Ok bs
    /\ fast_deserialize (dbinary bigR sl cl) tt env n (bs ++ tail) = Ok (v, tail)
    /\ fast_serialize (ccompact bigW) [] env n v = Ok bc
    /\ serialize (compact cdefault) c_init env n v = Ok bc
    /\ fast_deserialize (dcompact bigR sl cl) crd_init env n (bc ++ tail) = Ok (v, tail).
Proof.
  intros cf SL CL env n buf v rest bigW bigR sl cl tail Ht Hcl Hk Hd HS HC HL E Hc.
  destruct (binary_typed cf SL CL env n buf v rest Hk Hd HS HC E) as (Hw & Hn & Hdp).
  assert (Hwf : wf env SL CL (TStruct n) v = true).
  { rewrite <- wfb_wf. rewrite <- wfb_wf in Hw. revert Hw Hc. apply wfb_fits. auto. }
  pose proof HL as (L1 & L2 & L3).
  destruct (C54_round_trip_equal bigW bigR sl cl SL CL env n v tail HL Ht Hcl Hwf Hdp Hn)
    as [(bs & E1 & E2) (bc & E3 & E4)].
  destruct (C33_binary bigW cf SL CL env n v Ht L1 L2 Hwf) as [F1 _].
  destruct (C33_compact bigW cdefault SL CL env n v Ht L1 L2 Hwf) as [F2 _].
  exists bs, bc. repeat split; congruence.
Qed.

(** ** Examples

    A relay that knows an older schema: fields out of order, a set with an
    element twice, an unknown field, a default that was not sent. *)
Definition rl_env : schema :=
  [ [ mkfield 1 TI32 true None; mkfield 2 (TSet TI32) false None;
      mkfield 3 TString false (Some (VStr [104; 105]));
      mkfield 4 (TMap TString (TStruct 1)) false None ];
    [ mkfield 1 TBool true None ] ].
(* 2: set {1,2,1}  9: i16 (unknown)  1: 7  4: {"a": {1: true}} *)
Definition rl_buf : list byte :=
  [x0e; x00; x02; x08; x00; x00; x00; x03; x00; x00; x00; x01; x00; x00; x00; x02;
   x00; x00; x00; x01;
   x06; x00; x09; x12; x34;
   x08; x00; x01; x00; x00; x00; x07;
   x0d; x00; x04; x0b; x0c; x00; x00; x00; x01; x00; x00; x00; x01; x61;
   x02; x00; x01; x05; x00; x00].
Definition rl_obj : value :=
  VStruct 0 [Some (VInt 7); Some (VSet [VInt 1; VInt 2]); Some (VStr [104; 105]);
    Some (VMap [(VStr [97], VStruct 1 [Some (VBool true)])])].

Lemma rl_table : table_schema rl_env.
Proof.
  intros [|[|[|n]]] ds E; cbn in E; try discriminate; injection E as <-.
  - split; [repeat constructor|]. intros d Hd. cbn in Hd.
    repeat (destruct Hd as [<-|Hd]; [cbn; lia|]). destruct Hd.
  - split; [repeat constructor|]. intros d Hd. cbn in Hd.
    repeat (destruct Hd as [<-|Hd]; [cbn; lia|]). destruct Hd.
Qed.

Example C64_ex : schema_ok rl_env /\ schema_closed rl_env = true
  /\ schema_keyed rl_env = true /\ defaults_ok rl_env 100 100 = true
  /\ Z.min (b_slim bdefault) (Z.of_nat (length rl_buf)) <= 100
  /\ Z.min (b_clim bdefault) (Z.of_nat (length rl_buf) + 1) <= 100
  /\ deserialize (binary bdefault) tt rl_env 0 rl_buf = Ok (rl_obj, [])
  /\ complete rl_env (TStruct 0) rl_obj = true
  /\ finite_doubles rl_env (TStruct 0) rl_obj = true
  /\ exists bs, serialize (binary bdefault) tt rl_env 0 rl_obj = Ok bs /\ bs <> rl_buf
     /\ deserialize (binary bdefault) tt rl_env 0 bs = Ok (rl_obj, []).
Proof.
  split; [apply id16_table, rl_table|]. split; [reflexivity|]. split; [reflexivity|].
  split; [reflexivity|]. split; [vm_compute; discriminate|]. split; [vm_compute; discriminate|].
  split; [vm_compute; reflexivity|]. split; [reflexivity|]. split; [reflexivity|].
  eexists. split; [vm_compute; reflexivity|]. split; [discriminate|vm_compute; reflexivity].
Qed.

(** Reading does not look at required fields (C45), so that a relay may accept
    what it cannot pass on; what it did not know is lost; and compact gives out
    integers it will not take back. *)
Theorem C64_incomplete_refuted : exists env n buf v,
  deserialize (binary bdefault) tt env n buf = Ok (v, [])
  /\ (forall cfW, serialize (binary cfW) tt env n v = Raise (EProtocol TP_UNKNOWN))
  /\ (forall cfW, serialize (compact cfW) c_init env n v = Raise (EProtocol TP_UNKNOWN)).
Proof.
  exists rl_env, 0%nat,
    [x08; x00; x01; x00; x00; x00; x07;
     x0d; x00; x04; x0b; x0c; x00; x00; x00; x01; x00; x00; x00; x01; x61; x00; x00],
    (VStruct 0 [Some (VInt 7); None; Some (VStr [104; 105]);
      Some (VMap [(VStr [97], VStruct 1 [None])])]).
  split; [vm_compute; reflexivity|].
  split; intros []; vm_compute; reflexivity.
Qed.

Theorem C64_unknown_fields_lost_refuted : exists new old n v bs w bs',
  wf new 100 100 (TStruct n) v = true
  /\ serialize (binary bdefault) tt new n v = Ok bs
  /\ deserialize (binary bdefault) tt old n bs = Ok (w, [])
  /\ serialize (binary bdefault) tt old n w = Ok bs'
  /\ deserialize (binary bdefault) tt new n bs' = Ok (VStruct 0 [Some (VInt 1); None], [])
  /\ v <> VStruct 0 [Some (VInt 1); None].
Proof.
  exists [[mkfield 1 TI32 false None; mkfield 2 TI32 false None]],
    [[mkfield 1 TI32 false None]], 0%nat, (VStruct 0 [Some (VInt 1); Some (VInt 2)]).
  do 3 eexists. split; [reflexivity|]. split; [vm_compute; reflexivity|].
  split; [vm_compute; reflexivity|]. split; [vm_compute; reflexivity|].
  split; [vm_compute; reflexivity|discriminate].
Qed.

Theorem C64_compact_wide_refuted : exists env n buf v,
  deserialize (compact cdefault) c_init env n buf = Ok (v, [])
  /\ complete env (TStruct n) v = true
  /\ (forall cfW, exists e, serialize (binary cfW) tt env n v = Raise e)
  /\ (forall cfW, exists e, serialize (compact cfW) c_init env n v = Raise e).
Proof.
  exists [[mkfield 1 TI16 false None]], 0%nat, [x14; x80; x80; x04; x00],
    (VStruct 0 [Some (VInt 32768)]).
  split; [vm_compute; reflexivity|]. split; [reflexivity|].
  split; intros []; eexists; vm_compute; reflexivity.
Qed.

(** Axioms used. *)
Print Assumptions C64_binary_typed.
Print Assumptions C64_compact_typed.
Print Assumptions C64_binary_relay.
Print Assumptions C64_compact_relay.
Print Assumptions C64_same_reader.
Print Assumptions C64_binary_to_json.
Print Assumptions C64_binary_to_accelerated.
Print Assumptions C64_incomplete_refuted.
Print Assumptions C64_unknown_fields_lost_refuted.
Print Assumptions C64_compact_wide_refuted.
