(** Reading a well-formed message into an object that already exists. *)
From Coq Require Import ZArith List Bool Lia.
From Coq Require Import Init.Byte.
From Coq Require Import ZifyBool ZifyNat ZifyN.
From Verif Require Import Base Bytes Utf8 Proto Spec Laws RoundTrip StructFacts
  Binary BinaryLaws SpecBinary Compact CompactLaws SpecCompact WireFacts
  JsonText JsonTextFacts Json JsonLaws SpecJson InstFacts JsonFacts.
From Verif Require Import Into IntoFacts.
Import ListNotations.
Open Scope Z_scope.

(** What the attributes are afterwards. *)
Definition looked envW envR dsR fs dsW (base : list (option value)) :=
  map (fun p => look envW envR (fst p) (snd p) fs dsW) (combine dsR base).

Lemma into_enc {X} {P : proto X} {SL CL} (L : laws P SL CL) envW envR R imm F k
    fs n m dsW dsR base c d :
  schema_okd (idok L) envW -> schema_okd (idok L) envR -> compat_env envW envR R ->
  R n m = true -> nth_error envW n = Some dsW -> nth_error envR m = Some dsR ->
  length base = length dsR -> 0 <= d -> spos L c ->
  wfd (dok L) envW SL CL (TStruct n) (VStruct n fs) = true ->
  d + Z.of_nat (sdepth (VStruct n fs)) <= 64 -> (sdepth (VStruct n fs) <= S k)%nat ->
  (length (enc L envW c (TStruct n) (VStruct n fs)) <= F)%nat ->
  drop_ok envW envR (skbin L) SKIP_DEPTH (TStruct n) (TStruct m) (VStruct n fs) = true ->
  forall tail x i o,
  rrep L c x i (enc L envW c (TStruct n) (VStruct n fs) ++ tail) ->
  exists s', into_struct P envR imm (S k) F m base (mkst x i o d)
             = (Ok tt, looked envW envR dsR fs dsW base, s').
Proof.
  intros HW HR HC Hnm EW ER Hlen H0 Hpos Hwf Hd Hdf HF Hdr tail x i o Hx.
  assert (HRD : RdD (rrep L) d anyT c (nxt L c) (enc L envW c (TStruct n) (VStruct n fs))
    (with_depth (readStructBegin P ;;;
       acc <- read_fields P F F (read_ty P (read_struct P envR k F) F) dsR base ;;
       readStructEnd P ;;; ret (VStruct m acc)))
    (VStruct m (looked envW envR dsR fs dsW base))).
  { destruct (HC n m Hnm) as (dW & dR & EW' & ER' & Hcf).
    rewrite EW in EW'. injection EW' as <-. rewrite ER in ER'. injection ER' as <-.
    rewrite wf_struct in Hwf. apply andb_prop in Hwf as [_ Hf]. rewrite EW in Hf.
    destruct (HW _ _ EW) as [HndW HidW]. destruct (HR _ _ ER) as [HndR _].
    rewrite (enc_struct L envW c n n fs dsW EW) in *. rewrite app_length in HF.
    rewrite (drop_struct L envW envR _ _ _ _ _ dsW dsR EW ER) in Hdr.
    assert (Hs1 : (1 <= sdepth (VStruct n fs))%nat) by (cbn [sdepth]; lia).
    assert (Hsd := sdepth_struct n fs (sdepth (VStruct n fs) - 1)).
    specialize (Hsd ltac:(lia)). rewrite Forall_forall in Hsd.
    apply Rd_depth; [lia|].
    eapply Rd_bind; [apply Rd_D, r_sbeg; exact Hpos|intros; exact I|].
    unfold looked. rewrite <- upd_fields_look by auto.
    apply (read_fields_enc L envW envR R HW F (d + 1) dsR _
             (fun acc => ret (VStruct m acc))); auto; try lia.
    + rewrite Forall_forall. intros [y|] Hy; [|exact I].
      specialize (Hsd _ Hy). cbn beta iota in *.
      intros t tR' c' Hp Hw Hc' Hle Hdr'.
      apply (read_enc L envW envR R HW HR HC); auto; lia.
    + apply (p_fS _ _ _ L); assumption. }
  destruct (HRD tail I x i o Hx) as (x1 & i1 & E1 & _).
  pose proof (into_struct_read P envR imm k F m dsR base ER
    (fun m' dm Em => into_struct_fresh P envR imm k F m' dm Em) (mkst x i o d)) as Ha.
  rewrite E1 in Ha.
  destruct (into_struct P envR imm (S k) F m base _) as [[[[]|e|] a] s'];
    cbn [fin] in Ha; try discriminate Ha.
  injection Ha as Ha _. exists s'. rewrite <- Ha. reflexivity.
Qed.

Lemma binary_into cf SL CL envW envR R imm n m fs dsW dsR base tail :
  b_limits cf SL CL ->
  schema_ok envW -> schema_ok envR -> compat_env envW envR R -> R n m = true ->
  nth_error envW n = Some dsW -> nth_error envR m = Some dsR ->
  length base = length dsR -> imm m = false ->
  wf envW SL CL (TStruct n) (VStruct n fs) = true ->
  (sdepth (VStruct n fs) <= 64)%nat ->
  drop_ok envW envR utf8_valid SKIP_DEPTH (TStruct n) (TStruct m) (VStruct n fs) = true ->
  deserialize_into (binary cf) envR imm tt m base
    (sb_value envW (TStruct n) (VStruct n fs) ++ tail)
  = (Ok tt, looked envW envR dsR fs dsW base).
Proof.
  intros Hl HW HR HC Hnm EW ER Hb Him Hwf Hd Hdr. unfold deserialize_into.
  rewrite Him. set (L := binary_laws cf SL CL Hl).
  pose proof (enc_binary_spec cf SL CL Hl envW (VStruct n fs) (TStruct n)) as Ee.
  rewrite <- Ee.
  destruct (into_enc L envW envR R imm (S (length (enc L envW tt (TStruct n) (VStruct n fs) ++ tail)))
    64 fs n m dsW dsR base tt 0 HW HR HC Hnm EW ER Hb ltac:(lia) I Hwf
    ltac:(lia) ltac:(lia) ltac:(rewrite app_length; lia) Hdr tail tt _ [] eq_refl)
    as (s' & E).
  unfold DFUEL. subst L. rewrite E. reflexivity.
Qed.

Lemma compact_into cf SL CL envW envR R imm n m fs dsW dsR base tail :
  c_limits cf SL CL ->
  schema_ok envW -> schema_ok envR -> compat_env envW envR R -> R n m = true ->
  nth_error envW n = Some dsW -> nth_error envR m = Some dsR ->
  length base = length dsR -> imm m = false ->
  wf envW SL CL (TStruct n) (VStruct n fs) = true ->
  (sdepth (VStruct n fs) <= 64)%nat ->
  drop_ok envW envR utf8_valid SKIP_DEPTH (TStruct n) (TStruct m) (VStruct n fs) = true ->
  deserialize_into (compact cf) envR imm c_init m base
    (sc_value envW (TStruct n) (VStruct n fs) ++ tail)
  = (Ok tt, looked envW envR dsR fs dsW base).
Proof.
  intros Hl HW HR HC Hnm EW ER Hb Him Hwf Hd Hdr. unfold deserialize_into.
  rewrite Him. set (L := compact_laws cf SL CL Hl).
  rewrite <- (enc_compact_spec cf SL CL Hl envW (VStruct n fs) (TStruct n) (c_top c_init) I).
  destruct (into_enc L envW envR R imm
    (S (length (enc L envW (c_top c_init) (TStruct n) (VStruct n fs) ++ tail)))
    64 fs n m dsW dsR base (c_top c_init) 0 HW HR HC Hnm EW ER Hb ltac:(lia) I Hwf
    ltac:(lia) ltac:(lia) ltac:(rewrite app_length; lia) Hdr tail c_init _ []
    (ready_rrep c_init _ ltac:(repeat split)))
    as (s' & E).
  unfold DFUEL. subst L. rewrite E. reflexivity.
Qed.

Lemma json_into limit SL CL envW envR R imm n m fs dsW dsR base tail :
  j_limits limit SL CL ->
  schema_ok envW -> schema_ok envR -> compat_env envW envR R -> R n m = true ->
  nth_error envW n = Some dsW -> nth_error envR m = Some dsR ->
  length base = length dsR -> imm m = false ->
  wfd finite envW SL CL (TStruct n) (VStruct n fs) = true ->
  (sdepth (VStruct n fs) <= 64)%nat ->
  drop_ok envW envR (fun _ => true) SKIP_DEPTH (TStruct n) (TStruct m) (VStruct n fs) = true ->
  deserialize_into (json limit) envR imm j_init m base
    (sj_value envW false (TStruct n) (VStruct n fs) ++ tail)
  = (Ok tt, looked envW envR dsR fs dsW base).
Proof.
  intros Hl HW HR HC Hnm EW ER Hb Him Hwf Hd Hdr. unfold deserialize_into.
  rewrite Him. set (L := json_laws limit SL CL Hl).
  pose proof (enc_json_spec limit SL CL Hl envW (VStruct n fs) [CBase] (TStruct n) Hwf) as Ee.
  cbn [sep top esc j_nxt adv app] in Ee. rewrite <- Ee.
  destruct (into_enc L envW envR R imm
    (S (length (enc L envW [CBase] (TStruct n) (VStruct n fs) ++ tail)))
    64 fs n m dsW dsR base [CBase] 0 HW HR HC Hnm EW ER Hb ltac:(lia) I Hwf
    ltac:(lia) ltac:(lia) ltac:(rewrite app_length; lia) Hdr tail j_init _ []
    (conj eq_refl eq_refl))
    as (s' & E).
  unfold DFUEL. subst L. rewrite E. reflexivity.
Qed.

(** * [looked], attribute by attribute *)

Lemma look_sent envW envR dR dflt fs : forall ds j d x, NoDup (map f_id ds) ->
  nth_error ds j = Some d -> nth_error fs j = Some (Some x) ->
  f_id d = f_id dR -> code (f_ty d) = code (f_ty dR) ->
  look envW envR dR dflt fs ds = Some (proj envW envR (f_ty d) (f_ty dR) x).
Proof.
  induction fs as [|f fs IH]; intros [|d0 ds] [|j] d x Hnd Hd Hf Hi Hc; try discriminate;
    cbn [nth_error] in *; cbn [map] in Hnd; inversion Hnd as [|? ? Hni Hnd']; subst.
  - injection Hd as ->. injection Hf as ->. cbn [look].
    replace (f_id d =? f_id dR) with true by lia.
    replace (code (f_ty d) =? code (f_ty dR)) with true by lia. reflexivity.
  - cbn [look]. destruct f as [y|]; [|eapply IH; eassumption].
    destruct (f_id d0 =? f_id dR) eqn:E; [|cbn [andb]; eapply IH; eassumption].
    exfalso. apply Hni. replace (f_id d0) with (f_id d) by lia.
    apply in_map. eapply nth_error_In. exact Hd.
Qed.

Lemma look_unsent envW envR dR dflt fs : forall ds,
  (forall j d x, nth_error ds j = Some d -> nth_error fs j = Some (Some x) ->
     f_id d = f_id dR -> code (f_ty d) <> code (f_ty dR)) ->
  look envW envR dR dflt fs ds = dflt.
Proof.
  induction fs as [|f fs IH]; intros [|d0 ds] H; try reflexivity; cbn [look].
  assert (Ht : look envW envR dR dflt fs ds = dflt)
    by (apply IH; intros j d x H1 H2; exact (H (S j) d x H1 H2)).
  destruct f as [y|]; [|exact Ht].
  destruct (f_id d0 =? f_id dR) eqn:E; [|exact Ht].
  pose proof (H O d0 y eq_refl eq_refl ltac:(lia)) as Hn.
  replace (code (f_ty d0) =? code (f_ty dR)) with false by lia. exact Ht.
Qed.

Lemma looked_length envW envR dsR fs dsW base : length base = length dsR ->
  length (looked envW envR dsR fs dsW base) = length base.
Proof. intros H. unfold looked. rewrite map_length, combine_length. lia. Qed.

Lemma looked_nth envW envR fs dsW : forall dsR base i dR old,
  nth_error dsR i = Some dR -> nth_error base i = Some old ->
  nth_error (looked envW envR dsR fs dsW base) i = Some (look envW envR dR old fs dsW).
Proof.
  unfold looked. induction dsR as [|d ds IH]; intros [|b base] [|i] dR old Hd Hb;
    try discriminate; cbn [nth_error combine map fst snd] in *.
  - injection Hd as ->. injection Hb as ->. reflexivity.
  - apply IH; assumption.
Qed.

(** * One schema on both sides *)

Lemma wfd_nth {D} env SL CL : forall fs ds i d x,
  wf_fields (D := D) env SL CL fs ds = true ->
  nth_error ds i = Some d -> nth_error fs i = Some (Some x) ->
  wfd D env SL CL (f_ty d) x = true.
Proof.
  induction fs as [|f fs IH]; intros [|d0 ds] [|i] d x Hw Hd Hf; try discriminate;
    cbn [wf_fields nth_error] in *; apply andb_prop in Hw as [H1 H2].
  - injection Hd as ->. injection Hf as ->. exact H1.
  - eapply IH; eassumption.
Qed.

Lemma looked_same {D I} env SL CL n fs ds base i d f old :
  schema_okd I env -> nth_error env n = Some ds ->
  wfd D env SL CL (TStruct n) (VStruct n fs) = true ->
  nth_error ds i = Some d -> nth_error fs i = Some f -> nth_error base i = Some old ->
  nth_error (looked env env ds fs ds base) i
  = Some (match f with Some x => Some (with_defaults env (f_ty d) x) | None => old end).
Proof.
  intros Hok E Hwf Hd Hf Hb. rewrite (looked_nth _ _ _ _ _ _ _ _ _ Hd Hb).
  destruct (Hok _ _ E) as [Hnd _]. f_equal. destruct f as [x|].
  - rewrite (look_sent env env d old fs ds i d x Hnd Hd Hf eq_refl eq_refl).
    rewrite wf_struct in Hwf. apply andb_prop in Hwf as [_ Hw]. rewrite E in Hw.
    f_equal. eapply proj_with_defaults; [exact Hok|]. eapply wfd_nth; eassumption.
  - apply look_unsent. intros j d' x Hd' Hf' Hid _.
    assert (i = j).
    { apply (NoDup_nth_error (map f_id ds)).
      - exact Hnd.
      - rewrite map_length. apply nth_error_Some. congruence.
      - rewrite !nth_error_map, Hd, Hd'. cbn [option_map]. congruence. }
    subst j. congruence.
Qed.

(** * A message cut after the header of a field *)

Lemma find_field_at ds : NoDup (map f_id ds) -> forall i d, nth_error ds i = Some d ->
  find_field ds (f_id d) = Some (i, d).
Proof.
  intros Hnd. induction ds as [|d0 ds IH]; intros [|i] d H; try discriminate;
    cbn [nth_error map find_field] in *; inversion Hnd as [|? ? Hni Hnd']; subst.
  - injection H as ->. rewrite Z.eqb_refl. reflexivity.
  - destruct (f_id d =? f_id d0) eqn:E.
    + exfalso. apply Hni. replace (f_id d0) with (f_id d) by lia.
      apply in_map. eapply nth_error_In, H.
    + rewrite (IH Hnd' i d H). reflexivity.
Qed.

(** What an attribute is set to before its value is read. *)
Definition blank (env : schema) (t : ty) (v : value) : Prop :=
  match t with
  | TList _ => v = VList []
  | TSet _ => v = VSet []
  | TMap _ _ => v = VMap []
  | TStruct k => exists ds, nth_error env k = Some ds /\ v = VStruct k (fresh ds)
  | _ => False
  end.

Lemma binary_header cf t id o dd : between (-32768) 32767 id = true ->
  readFieldBegin (binary cf) (mkst tt (int8 (sb_type t) ++ int16 id) o dd)
  = (Ok (code t, id), mkst tt [] o dd).
Proof.
  intros Hid. apply between_spec in Hid. pose proof (code_range t).
  cbn [binary readFieldBegin].
  unfold b_readFieldBegin, b_readByte, b_readI16. unfold bind at 1.
  replace (int8 (sb_type t) ++ int16 id) with (be_bytes 1 (code t) ++ be_bytes 2 id ++ [])
    by (rewrite app_nil_r; destruct t; reflexivity).
  rewrite (readInt 1) by (lia || apply in1; lia). rewrite code_not_stop.
  unfold bind at 1. rewrite (readInt 2) by (lia || apply in2; lia). reflexivity.
Qed.

Lemma into_struct_S {X} (P : proto X) env imm k F n :
  into_struct P env imm (S k) F n =
  match nth_error env n with
  | None => fun a s => (Raise EAttributeError, a, s)
  | Some ds =>
      framed (thn (call (readStructBegin P))
        (thn (into_fields P F F
                (into_attr P env imm (read_struct P env k F) (into_struct P env imm k F) F)
                ds)
             (call (readStructEnd P))))
  end.
Proof. reflexivity. Qed.

Lemma binary_cut cf env imm n ds i d v base :
  schema_ok env -> imm n = false -> nth_error env n = Some ds ->
  nth_error ds i = Some d -> blank env (f_ty d) v ->
  (forall k, f_ty d = TStruct k -> imm k = false) ->
  deserialize_into (binary cf) env imm tt n base
    (int8 (sb_type (f_ty d)) ++ int16 (f_id d))
  = (Raise EEOFError, set_nth i (Some v) base).
Proof.
  intros Hok Him E Hd Hv Hk. unfold deserialize_into. rewrite Him.
  destruct (Hok _ _ E) as [Hnd Hid].
  set (buf := int8 _ ++ int16 _).
  replace (S (length buf)) with 4%nat by (unfold buf, int8, int16; rewrite app_length; reflexivity).
  replace DFUEL with (S (S 63)) by reflexivity. generalize 63%nat as k. intros k.
  assert (Ha : forall old, into_attr (binary cf) env imm (read_struct (binary cf) env (S k) 4)
      (into_struct (binary cf) env imm (S k) 4) 4 (f_ty d) old (mkst tt [] [] 1)
      = (Raise EEOFError, Some v, mkst tt [] [] 1)).
  { intros old. clear -Hv Hk. destruct (f_ty d); cbn [blank] in Hv; try contradiction.
    - subst v. reflexivity.
    - subst v. reflexivity.
    - subst v. reflexivity.
    - destruct Hv as (ds & E & ->). unfold into_attr.
      rewrite E, (Hk n eq_refl). unfold within. rewrite into_struct_S, E. reflexivity. }
  rewrite into_struct_S, E.
  set (at_ := into_attr _ _ _ _ _ _) in *. clearbody at_.
  unfold framed, thn, call, ask.
  unfold increment_recursion_depth. cbn [depth px inp out].
  change (0 + 1) with 1. change (1 >? DEFAULT_RECURSION_DEPTH) with false. cbn beta iota.
  unfold done. cbn [binary readStructBegin]. unfold b_pass, ret at 1. cbn beta iota.
  replace (into_fields (binary cf) 4 4 at_ ds base (mkst tt buf [] 1))
    with (@Raise unit EEOFError, set_nth i (Some v) base, mkst tt [] [] 1); [reflexivity|].
  cbn [into_fields]. unfold ask at 1.
  change buf with (int8 (sb_type (f_ty d)) ++ int16 (f_id d)).
  rewrite (binary_header cf (f_ty d) (f_id d) [] 1)
    by (apply Hid; eapply nth_error_In, Hd).
  cbn beta iota. rewrite code_not_stop, (find_field_at ds Hnd i d Hd), Z.eqb_refl.
  unfold thn, attr. rewrite Ha. reflexivity.
Qed.
