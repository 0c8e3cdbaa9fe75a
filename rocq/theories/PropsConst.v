(** C72: constants.py holds what the IDL says.

    What a constant stands for is said in SpecConst.v ([meaning]); Const.v
    models the compiler's checks, the text it prints and what Python makes of
    the text. *)
From Coq Require Import String Ascii.
From Coq Require Import ZArith List Bool Lia.
From Coq Require Import Init.Byte.
From Coq Require Import ZifyBool ZifyNat ZifyN.
From Verif Require Import Base Bytes BytesFacts Utf8 Proto JsonText JsonTextFacts
  GenClass SpecClass GenClassFacts Const ConstText SpecConst ConstFacts.
Import ListNotations.
Open Scope Z_scope.

(** * What works *)

(** The text is Python and evaluates to the value the IDL gives. *)
Theorem C72_value : forall p scope t c v,
  prog_ok p -> (forall d, In d (p_enums p) -> enum_ok d) -> ascii_names p ->
  meaning p scope t c = Some v ->
  exists x, compile_const p scope t c = Some x
    /\ lexes x = true /\ eval p x = POk (lift p t v).
Proof. intros p scope t c v Hp He Hn H. apply compile_meaning; assumption. Qed.

(** A reference to a constant of base type stands for what that constant
    stands for ... *)
Theorem C72_reference : forall p scope bt c v c1 c2 n e,
  meaning p scope (GBase bt) c = Some v ->
  resolve p scope (GBase bt) c = Some c1 -> validate p (GBase bt) c1 = Some c2 ->
  (bt = TDouble -> forall z, c2 <> CInt z) ->
  meaning p ((n, (GBase bt, c2)) :: scope) (GBase bt) (CIdent n e) = Some v.
Proof.
  intros p scope bt c v c1 c2 n e H R V Hd.
  assert (L : leaf bt c1 = Some v).
  { destruct c as [z|b|s|id o|l|l].
    1-3: cbn [meaning resolve resolve_leaf] in *; injection R as <-; exact H.
    - cbn [meaning] in H.
      destruct (assoc id scope) as [[t' c']|] eqn:A; [|discriminate].
      destruct t' as [bt'| | | | |]; try discriminate.
      destruct (same_base bt bt') eqn:S; [|discriminate].
      apply same_base_eq in S. subst bt'.
      assert (H' : leaf bt c' = Some v
                   /\ match bt, c' with TDouble, CInt _ => False | _, _ => True end).
      { destruct bt, c'; try discriminate; split; (exact H || exact Logic.I). }
      destruct H' as [H1 H2].
      destruct (leaf_reference p scope bt c' v id o H1 H2 A) as (c1' & R' & Hc).
      rewrite R in R'. injection R' as <-. exact Hc.
    - destruct bt; discriminate H.
    - destruct bt; discriminate H. }
  assert (L2 : leaf bt c2 = Some v).
  { destruct bt, c1; cbn [leaf] in L; try discriminate; cbn [validate] in V;
      try (injection V as <-; exact L).
    destruct (uuid_of s) as [b|] eqn:U; [|discriminate].
    destruct (uuid_of_spec s b U) as (u & V1 & _ & U2 & _). rewrite V1 in V.
    injection V as <-. cbn [leaf]. rewrite U2. exact L. }
  cbn [meaning assoc]. rewrite String.eqb_refl.
  replace (same_base bt bt) with true by (destruct bt; try reflexivity; destruct c2; discriminate L2).
  destruct bt; try exact L2. destruct c2 as [z| | | | |]; try exact L2.
  exfalso. apply (Hd eq_refl z). reflexivity.
Qed.

(** ... and the module of all constants imports, with each under its name. *)
Lemma exec_all p l : forall m,
  (forall n x, In (n, x) l -> exists y, eval p x = POk y) ->
  exists m', exec p l m = Imported m'
    /\ (forall k, ~ In k (map (fun nx => maybe_escape_identifier (fst nx)) l) -> assoc k m' = assoc k m)
    /\ (NoDup (map (fun nx => maybe_escape_identifier (fst nx)) l) ->
        forall n x y, In (n, x) l -> eval p x = POk y ->
          assoc (maybe_escape_identifier n) m' = Some y).
Proof.
  induction l as [|[n x] l IH]; intros m H; cbn [exec].
  - exists m. split; [reflexivity|]. split; [reflexivity|]. intros _ ? ? ? [].
  - destruct (H n x (or_introl eq_refl)) as [y Hy]. rewrite Hy.
    destruct (IH (upd m (maybe_escape_identifier n) y)) as (m' & E & K & V).
    { intros n' x' Hi. apply (H n' x'). right. assumption. }
    exists m'. split; [exact E|]. cbn [map fst]. split.
    + intros k Hk. rewrite K by (intros Hi; apply Hk; right; assumption).
      rewrite assoc_upd. destruct (String.eqb_spec k (maybe_escape_identifier n)) as [->|]; [|reflexivity].
      exfalso. apply Hk. left. reflexivity.
    + intros Hn. inversion Hn as [|? ? H1 H2]; subst. intros n' x' y' [Hi|Hi] Hy'.
      * injection Hi as <- <-. rewrite Hy in Hy'. injection Hy' as <-.
        rewrite K by assumption. rewrite assoc_upd, String.eqb_refl. reflexivity.
      * apply (V H2 n' x' y'); assumption.
Qed.

Theorem C72_module : forall p (l : list (string * pexpr)),
  prog_ok p -> (forall d, In d (p_enums p) -> enum_ok d) -> ascii_names p ->
  NoDup (map (fun nx => maybe_escape_identifier (fst nx)) l) ->
  (forall n x, In (n, x) l -> exists scope t c v,
     meaning p scope t c = Some v /\ compile_const p scope t c = Some x) ->
  exists m, import_constants p l = Imported m
    /\ forall n x scope t c v, In (n, x) l ->
         meaning p scope t c = Some v -> compile_const p scope t c = Some x ->
         assoc (maybe_escape_identifier n) m = Some (lift p t v).
Proof.
  intros p l Hp He Ha Hn Hl.
  assert (G : forall n x scope t c v, In (n, x) l -> meaning p scope t c = Some v ->
    compile_const p scope t c = Some x -> lexes x = true /\ eval p x = POk (lift p t v)).
  { intros n x scope t c v _ H1 H2.
    destruct (compile_meaning p scope t c v Hp He Ha H1) as (x' & H3 & H4 & H5).
    rewrite H2 in H3. injection H3 as <-. auto. }
  destruct (exec_all p l []) as (m & E & _ & V).
  { intros n x Hi. destruct (Hl n x Hi) as (scope & t & c & v & H1 & H2).
    destruct (G n x scope t c v Hi H1 H2) as [_ H3]. eauto. }
  exists m. split.
  - unfold import_constants. replace (forallb _ l) with true; [exact E|].
    symmetry. apply forallb_forall. intros [n x] Hi. cbn [snd].
    destruct (Hl n x Hi) as (scope & t & c & v & H1 & H2).
    apply (G n x scope t c v Hi H1 H2).
  - intros n x scope t c v Hi H1 H2. apply (V Hn n x); [assumption|].
    apply (G n x scope t c v Hi H1 H2).
Qed.

(** A string literal: what the compiler's scanner takes for [s], Python takes
    for [s] when it is printed back. *)
Theorem C72_literal : forall p s l r scope,
  no_nul s = true -> utf8_decode s = Some l ->
  lex_literal x22 (escape_string s ++ x22 :: r) = Some (s, r)
  /\ compile_const p scope (GBase TString) (CString s) = Some (XStr (escape_string s))
  /\ eval p (XStr (escape_string s)) = POk (PVal (VStr l)).
Proof.
  intros p s l r scope Hn Hd. split; [apply lex_escape|]. split; [reflexivity|].
  cbn [eval]. rewrite (str_literal_escape s l Hn Hd). reflexivity.
Qed.

(** Any literal: how the characters between two marks are spelt. *)
Inductive spelt (mark : byte) : list byte -> list byte -> Prop :=
| spelt_nil : spelt mark [] []
| spelt_plain : forall b u s, b <> mark -> b <> x0a -> b <> x5c -> spelt mark u s -> spelt mark (b :: u) (b :: s)
| spelt_escape : forall e c u s,
    In (e, c) [(x72, x0d); (x6e, x0a); (x74, x09); (x22, x22); (x27, x27); (x5c, x5c)] ->
    spelt mark u s -> spelt mark (x5c :: e :: u) (c :: s).

(** The scanner takes a literal up to the mark that ends it, within a line, and
    refuses every other. *)
Theorem C72_literal_exact : forall mark l s t,
  In mark [x22; x27] ->
  lex_literal mark l = Some (s, t) <-> exists u, l = u ++ mark :: t /\ spelt mark u s.
Proof.
  intros mark l s t Hm.
  assert (M : mark <> x0a /\ mark <> x5c) by (destruct Hm as [<-|[<-|[]]]; split; discriminate).
  destruct M as [M1 M2]. split.
  - assert (G : forall n l s, (length l <= n)%nat -> lex_literal mark l = Some (s, t) ->
                  exists u, l = u ++ mark :: t /\ spelt mark u s).
    { clear l s. induction n as [|n IH]; intros l s Hl H; (destruct l as [|b r]; [discriminate|]); cbn [length] in Hl; [lia|].
      cbn [lex_literal] in H. destruct (Byte.eqb b x0a) eqn:E1; [discriminate|].
      destruct (Byte.eqb b x5c) eqn:E2.
      - destruct r as [|e r']; [discriminate|]. cbn [length] in Hl.
        destruct (match e with
                  | x72 => Some x0d | x6e => Some x0a | x74 => Some x09
                  | x22 => Some x22 | x27 => Some x27 | x5c => Some x5c
                  | _ => None
                  end) as [c|] eqn:E3; [|discriminate].
        destruct (lex_literal mark r') as [[s' t']|] eqn:E4; [|discriminate]. injection H as <- <-.
        destruct (IH r' s') as (u & -> & Hu); [lia|assumption|].
        apply Byte.byte_dec_bl in E2. subst b.
        exists (x5c :: e :: u). split; [reflexivity|]. apply spelt_escape; [|assumption].
        clear - E3. destruct e; try discriminate E3; injection E3 as <-; cbn [In]; tauto.
      - destruct (Byte.eqb b mark) eqn:E3.
        + injection H as <- <-. apply Byte.byte_dec_bl in E3. subst b. exists []. split; [reflexivity|constructor].
        + destruct (lex_literal mark r) as [[s' t']|] eqn:E4; [|discriminate]. injection H as <- <-.
          destruct (IH r s') as (u & -> & Hu); [lia|assumption|].
          exists (b :: u). split; [reflexivity|]. constructor; auto; intros ->.
          * rewrite (Byte.byte_dec_lb eq_refl) in E3. discriminate.
          * discriminate E1.
          * discriminate E2. }
    intros H. exact (G (length l) l s (le_n _) H).
  - intros (u & -> & Hu). induction Hu as [|b u s H1 H2 H3 Hu IH|e c u s Hec Hu IH].
    + cbn [app lex_literal]. rewrite (Byte.byte_dec_lb (x := mark) eq_refl).
      destruct (Byte.eqb mark x0a) eqn:E1; [apply Byte.byte_dec_bl in E1; contradiction|].
      destruct (Byte.eqb mark x5c) eqn:E2; [apply Byte.byte_dec_bl in E2; contradiction|reflexivity].
    + cbn [app lex_literal]. rewrite IH.
      destruct (Byte.eqb b x0a) eqn:E1; [apply Byte.byte_dec_bl in E1; contradiction|].
      destruct (Byte.eqb b x5c) eqn:E2; [apply Byte.byte_dec_bl in E2; contradiction|].
      destruct (Byte.eqb b mark) eqn:E3; [apply Byte.byte_dec_bl in E3; contradiction|reflexivity].
    + cbn [app lex_literal]. rewrite IH. cbn [In] in Hec.
      destruct Hec as [H|[H|[H|[H|[H|[H|[]]]]]]]; injection H as <- <-; reflexivity.
Qed.
Example C72_literal_exact_ex :
  spelt x22 [x27; x5c; x22; x41] [x27; x22; x41]
  /\ lex_literal x22 [x41; x0a; x22] = None /\ lex_literal x27 [x5c; x61; x27] = None.
Proof.
  split; [|split; reflexivity].
  apply spelt_plain; try discriminate. apply spelt_escape; [cbn; tauto|].
  apply spelt_plain; try discriminate. constructor.
Qed.

(** * What does not *)

(** A binary constant with a byte that is not ASCII: constants.py is not Python,
    whatever else is in it. *)
Theorem C72_binary_fails : forall p scope s n l,
  ascii_only s = false ->
  exists x, compile_const p scope (GBase TBinary) (CString s) = Some x
    /\ (In (n, x) l -> import_constants p l = SyntaxError).
Proof.
  intros p scope s n l H. exists (XBytes (escape_string s)). split; [reflexivity|].
  intros Hi. unfold import_constants. replace (forallb _ l) with false; [reflexivity|].
  symmetry. apply not_true_iff_false. rewrite forallb_forall. intros F.
  specialize (F _ Hi). cbn [snd lexes] in F. rewrite (bytes_literal_high s H) in F. discriminate.
Qed.

(** A double below 2^-55 comes out as a zero of its sign. *)
Lemma units_tiny a : 0 <= a < 968 * 2 ^ 52 -> units a = 0.
Proof.
  intros Ha. apply units_small; [unfold DBL_INF; lia|].
  unfold dbl_mant. destruct (a <? 2 ^ 52) eqn:E.
  - unfold scale. replace (0 <=? -1074) with false by reflexivity.
    change (- -1074) with (107 + 967). rewrite Z.pow_add_r by lia.
    assert (2 ^ 967 >= 1) by (pose proof (Z.pow_pos_nonneg 2 967 ltac:(lia) ltac:(lia)); lia).
    assert (2 * (a * 10 ^ 16) < 2 ^ 107) by (change (2 ^ 52) with 4503599627370496 in *; change (10 ^ 16) with 10000000000000000;
          change (2 ^ 107) with 162259276829213363391578010288128; lia).
    apply Z.lt_le_trans with (2 ^ 107); [assumption|].
    rewrite <- (Z.mul_1_r (2 ^ 107)) at 1. apply Z.mul_le_mono_nonneg_l; lia.
  - set (e := a / 2 ^ 52). assert (0 <= e < 968).
    { split; [apply Z.div_pos; lia|]. apply Z.div_lt_upper_bound; lia. }
    pose proof (Z.mod_pos_bound a (2 ^ 52) ltac:(lia)) as Hm.
    unfold scale. replace (0 <=? e - 1075) with false by lia.
    replace (- (e - 1075)) with (108 + (967 - e)) by lia. rewrite Z.pow_add_r by lia.
    pose proof (Z.pow_pos_nonneg 2 (967 - e) ltac:(lia) ltac:(lia)) as Hq.
    assert (Hs : 2 * ((2 ^ 52 + a mod 2 ^ 52) * 10 ^ 16) < 2 ^ 108).
    { change (2 ^ 52) with 4503599627370496 in *. change (10 ^ 16) with 10000000000000000.
      change (2 ^ 108) with 324518553658426726783156020576256. lia. }
    apply Z.lt_le_trans with (2 ^ 108); [assumption|].
    rewrite <- (Z.mul_1_r (2 ^ 108)) at 1. apply Z.mul_le_mono_nonneg_l; lia.
Qed.

Theorem C72_small_double_lost : forall p scope b,
  0 <= b < 2 ^ 64 -> b mod 2 ^ 63 < 968 * 2 ^ 52 ->
  exists x, compile_const p scope (GBase TDouble) (CDouble b) = Some x
    /\ eval p x = POk (PVal (VDouble (if b <? 2 ^ 63 then 0 else 2 ^ 63))).
Proof.
  intros p scope b Hb Hs. exists (XFloat (emit_double b)). split; [reflexivity|].
  pose proof (Z.mod_pos_bound b (2 ^ 63) ltac:(lia)) as Hm.
  change (2 ^ 63) with DBL_SIGN in *. cbn [eval]. rewrite float_literal_emit.
  - rewrite units_tiny by lia. change (dbl_round 0 (10 ^ 16)) with 0. do 3 f_equal.
    destruct (b <? DBL_SIGN) eqn:E.
    + rewrite Z.mod_small by lia. lia.
    + change (2 ^ 64) with (2 * DBL_SIGN) in Hb.
      rewrite <- (Z.mod_unique b DBL_SIGN 1 (b - DBL_SIGN)); lia.
  - assumption.
  - unfold finite, DBL_INF. lia.
Qed.

(** Nor do all larger ones survive: 0.25 + 2^-54. *)
Theorem C72_double_refuted : exists b, 4598175219545276416 < b < 4602678819172646912
  /\ forall p scope, exists x, compile_const p scope (GBase TDouble) (CDouble b) = Some x
       /\ exists b', eval p x = POk (PVal (VDouble b')) /\ b' <> b.
Proof.
  exists 4598175219545276417. split; [lia|]. intros p scope.
  exists (XFloat (emit_double 4598175219545276417)). split; [reflexivity|].
  exists 4598175219545276418. split; [|lia]. vm_compute. reflexivity.
Qed.

(** An infinite one (1e400) stops the import. *)
Theorem C72_infinite_fails : forall p scope b,
  0 <= b < 2 ^ 64 -> b mod 2 ^ 63 = DBL_INF ->
  exists x, compile_const p scope (GBase TDouble) (CDouble b) = Some x
    /\ lexes x = true /\ eval p x = PNameError.
Proof.
  intros p scope b Hb H. exists (XFloat (emit_double b)). split; [reflexivity|].
  assert (E : b = DBL_INF \/ b = DBL_SIGN + DBL_INF).
  { pose proof (Z.div_mod b (2 ^ 63) ltac:(lia)) as D. rewrite H in D.
    change (2 ^ 63) with DBL_SIGN in D.
    assert (b / DBL_SIGN = 0 \/ b / DBL_SIGN = 1).
    { unfold DBL_SIGN, DBL_INF in *. change (2 ^ 64) with 18446744073709551616 in *. lia. }
    lia. }
  destruct E as [-> | ->]; split; reflexivity.
Qed.

(** A constant of container type that is not given by a literal of that form -
    a reference to another constant, a number, a string - comes out empty. *)
Theorem C72_container_loses : forall p scope i et c,
  (forall l, c <> CList l) ->
  (exists x, compile_const p scope (GList i et) c = Some x /\ eval p x = POk (PList i []))
  /\ (exists x, compile_const p scope (GSet i et) c = Some x /\ eval p x = POk (PSet i [])).
Proof.
  intros p scope i et c H.
  destruct c; try (split; eexists; split; reflexivity).
  exfalso. apply (H l). reflexivity.
Qed.
Theorem C72_map_loses : forall p scope i kt vt c,
  (forall l, c <> CMap l) ->
  exists x, compile_const p scope (GMap i kt vt) c = Some x /\ eval p x = POk (PMap i []).
Proof.
  intros p scope i kt vt c H.
  destruct c; try (eexists; split; reflexivity).
  exfalso. apply (H l). reflexivity.
Qed.

(** A reference to a double given as an integer is a reference to 0. *)
Theorem C72_double_reference_lost : forall p scope id e z,
  assoc id scope = Some (GBase TDouble, CInt z) ->
  exists x, compile_const p scope (GBase TDouble) (CIdent id e) = Some x
    /\ eval p x = POk (PVal (VDouble 0)).
Proof.
  intros p scope id e z H. exists (XFloat (emit_double 0)). split.
  - unfold compile_const. cbn [resolve resolve_leaf]. rewrite H. reflexivity.
  - reflexivity.
Qed.

(** A string or a double given for an enum is taken for the member 0. *)
Theorem C72_enum_accepts : forall p scope e b d m c,
  (forall d, In d (p_enums p) -> enum_ok d) ->
  nth_error (p_enums p) e = Some d -> by_value d 0 = Some m ->
  (exists s, c = CString s) \/ (exists f, c = CDouble f) ->
  exists x, compile_const p scope (GEnum e b) c = Some x
    /\ eval p x = POk (lift p (GEnum e b) (VInt 0)).
Proof.
  intros p scope e b d m c He Hd Hm Hc.
  pose proof Hm as B. unfold by_value in B. destruct (find_some _ _ B) as [Hin Hz]. clear B.
  destruct (He d (nth_error_In _ _ Hd)) as (D1 & D2 & D3 & _). specialize (D1 m Hin).
  assert (LP : last_part (e_name d ++ "." ++ fst m) = fst m) by (apply last_part_app; assumption).
  assert (R : resolve p scope (GEnum e b) c = Some (CIdent (e_name d ++ "." ++ fst m) (Some e))).
  { destruct Hc as [[s ->]|[f ->]]; cbn [resolve resolve_leaf get_integer];
      rewrite Hd, Hm; reflexivity. }
  destruct (enum_render p e b d (fst m) m (e_name d ++ "." ++ fst m)%string He Hd) as
    (c2 & x & A1 & A2 & A3 & A4).
  - unfold by_name. apply (find_key _ _ String.eqb fst); [apply String.eqb_eq|assumption|assumption].
  - assumption.
  - unfold identifier_name. pose proof (after_dot_app (e_name d) (fst m) D2) as X2.
    change (e_name d ++ String "." (fst m))%string with (e_name d ++ "." ++ fst m)%string in X2.
    rewrite X2, D1. reflexivity.
  - exists x. unfold compile_const. rewrite R, A1. split; [exact A2|].
    rewrite A4. do 3 f_equal. lia.
Qed.

(** A bool is true if it is given as a positive number. *)
Theorem C72_bool : forall p scope z,
  exists x, compile_const p scope (GBase TBool) (CInt z) = Some x
    /\ eval p x = POk (PVal (VBool (0 <? z))).
Proof. intros. eexists. split; reflexivity. Qed.

(** A constant that gives a field named by a word of Python raises TypeError:
    the constructor's parameter has another name. *)
Theorem C72_keyword_field_fails : forall p scope n k f c x y,
  nth_error (p_classes p) n = Some k -> k_exc k = false ->
  field_named k (list_byte_of_string (g_name f)) = Some f ->
  no_nul (list_byte_of_string (g_name f)) = true ->
  ascii_only (list_byte_of_string (g_name f)) = true ->
  ~ In (g_name f) (map (fun g => maybe_escape_identifier (g_name g)) (k_fields k)) ->
  compile_const p scope (g_ty f) c = Some x -> eval p x = POk y ->
  exists x', compile_const p scope (GStruct n)
               (CMap [(CString (list_byte_of_string (g_name f)), c)]) = Some x'
    /\ eval p x' = PRaise ETypeError.
Proof.
  intros p scope n k f c x y Hk Hx Hf Hn Ha Hnot Hc Hy.
  set (s := list_byte_of_string (g_name f)) in *.
  exists (XNew n [(escape_string s, x)]). unfold compile_const in *.
  destruct (resolve p scope (g_ty f) c) as [c1|] eqn:R; [|discriminate].
  destruct (validate p (g_ty f) c1) as [c2|] eqn:V; [|discriminate].
  split.
  - rewrite (resolve_struct p scope n k _ Hk Hx). cbn [mapo]. unfold resolve_field.
    cbn [fst snd get_string]. rewrite Hf, R. cbn [option_map].
    rewrite (validate_struct p n k _ Hk). cbn [mapo]. unfold validate_field.
    cbn [fst snd]. rewrite Hf, V. cbn [option_map].
    rewrite (render_struct p n k _ Hk). cbn [mapo]. unfold render_field.
    cbn [fst snd get_string]. rewrite Hf, Hc. reflexivity.
  - rewrite eval_new. cbn [mapp]. unfold eval_kw. cbn [fst snd].
    rewrite (str_literal_escape s (map b2z s) Hn (ascii_decode s Ha)), Hy.
    unfold s. rewrite to_name_bytes. unfold new_object. rewrite Hk. unfold construct.
    cbn [forallb fst]. replace (mem _ _) with false; [reflexivity|].
    symmetry. apply mem_not. assumption.
Qed.

(** A set of lists, sets or maps, or a map with such keys, that is not empty
    and not frozen inside, cannot be built. *)
Definition unhashable (t : gty) : bool :=
  match t with GList false _ | GSet false _ | GMap false _ _ => true | _ => false end.

Lemma render_unhashable p t c x y : unhashable t = true -> render p t c = Some x ->
  eval p x = POk y -> hashes y = false.
Proof.
  intros Hu R E. destruct t as [| |[] et|[] et|[] kt vt|]; try discriminate.
  - assert (exists l, x = XList false l) as [l ->].
    { destruct c; cbn [render] in R; try (injection R as <-; eauto).
      match type of R with option_map _ ?o = _ => destruct o end; [|discriminate].
      injection R as <-. eauto. }
    rewrite eval_list in E. destruct (mapp (eval p) l); try discriminate. injection E as <-. reflexivity.
  - assert (exists l, x = XSet false l) as [l ->].
    { destruct c; cbn [render] in R; try (injection R as <-; eauto).
      match type of R with option_map _ ?o = _ => destruct o end; [|discriminate].
      injection R as <-. eauto. }
    rewrite eval_set in E. destruct (mapp (eval p) l) as [l'| |]; try discriminate.
    destruct (forallb hashes l'); [|discriminate]. injection E as <-. reflexivity.
  - assert (exists l, x = XDict false l) as [l ->].
    { destruct c; cbn [render] in R; try (injection R as <-; eauto).
      match type of R with option_map _ ?o = _ => destruct o end; [|discriminate].
      injection R as <-. eauto. }
    rewrite eval_dict in E. destruct (mapp (eval_pair p) l) as [l'| |]; try discriminate.
    destruct (forallb _ l'); [|discriminate]. injection E as <-. reflexivity.
Qed.

Theorem C72_unhashable_fails : forall p scope i t vt x,
  unhashable t = true ->
  (forall c l, compile_const p scope (GSet i t) (CList (c :: l)) = Some x ->
     forall v, eval p x <> POk v)
  /\ (forall k c l, compile_const p scope (GMap i t vt) (CMap ((k, c) :: l)) = Some x ->
     forall v, eval p x <> POk v).
Proof.
  intros p scope i t vt x Hu. split.
  - intros c l H v E. unfold compile_const in H. rewrite resolve_set in H.
    destruct (mapo (resolve p scope t) (c :: l)) as [l1|] eqn:M1; [|discriminate].
    apply mapo_inv in M1 as (c1 & t1 & _ & _ & ->). cbn [option_map] in H.
    rewrite validate_set in H.
    destruct (mapo (validate p t) (c1 :: t1)) as [l2|] eqn:M2; [|discriminate].
    apply mapo_inv in M2 as (c2 & t2 & _ & _ & ->). cbn [option_map] in H.
    rewrite render_set in H.
    destruct (mapo (render p t) (c2 :: t2)) as [l3|] eqn:M3; [|discriminate].
    apply mapo_inv in M3 as (x3 & t3 & R & _ & ->). cbn [option_map] in H.
    injection H as <-. rewrite eval_set in E. cbn [mapp] in E.
    destruct (eval p x3) as [y| |] eqn:E3; try discriminate.
    destruct (mapp (eval p) t3) as [l'| |]; try discriminate. cbn [forallb] in E.
    rewrite (render_unhashable p t c2 x3 y Hu R E3) in E. discriminate.
  - intros k c l H v E. unfold compile_const in H. rewrite resolve_map in H.
    unfold mapo2 in H.
    match type of H with context [option_map CMap ?o] => destruct o as [l1|] eqn:M1 end; [|discriminate].
    apply mapo_inv in M1 as ([k1 c1] & t1 & _ & _ & ->). cbn [option_map] in H.
    rewrite validate_map in H. unfold mapo2 in H.
    match type of H with context [option_map CMap ?o] => destruct o as [l2|] eqn:M2 end; [|discriminate].
    apply mapo_inv in M2 as ([k2 c2] & t2 & _ & _ & ->). cbn [option_map] in H.
    rewrite render_map in H. unfold mapo2 in H.
    match type of H with context [option_map (XDict i) ?o] => destruct o as [l3|] eqn:M3 end; [|discriminate].
    apply mapo_inv in M3 as (x3 & t3 & R & _ & ->). cbn [option_map] in H.
    cbn [fst snd] in R.
    destruct (render p t k2) as [xk|] eqn:Rk; [|discriminate].
    destruct (render p vt c2) as [xc|]; [|discriminate]. injection R as <-.
    injection H as <-. rewrite eval_dict in E. cbn [mapp] in E. unfold eval_pair at 1 in E.
    cbn [fst snd] in E.
    destruct (eval p xk) as [y| |] eqn:E3; try discriminate.
    destruct (eval p xc) as [y'| |]; try discriminate.
    destruct (mapp (eval_pair p) t3) as [l'| |]; try discriminate. cbn [forallb fst] in E.
    rewrite (render_unhashable p t k2 xk y Hu Rk E3) in E. discriminate.
Qed.

(** * Cases *)

(* enum Color { RED = 1, GREEN = 4, OFF = 0 }
   struct Point { 1: i32 x = 7, 2: list<Color> l }   struct Mail { 1: i32 from } *)
Definition art : gprog :=
  mkgprog false true
    [mkgenum "Color" [("RED"%string, 1); ("GREEN"%string, 4); ("OFF"%string, 0)]]
    [mkgclass "Point" false false
       [mkgfield "x" 1 (GBase TI32) false (Some (VInt 7));
        mkgfield "l" 2 (GList false (GEnum 0 false)) false None];
     mkgclass "Mail" false false [mkgfield "from" 1 (GBase TI32) false None]].
Definition art1 : gprog := mkgprog false true (p_enums art) (firstn 1 (p_classes art)).
Definition bs (s : string) : list byte := list_byte_of_string s.

Example C72_value_used :
  (forall d, In d (p_enums art1) -> enum_ok d) /\ ascii_names art1
  /\ meaning art1 [] (GMap false (GBase TString) (GStruct 0))
       (CMap [(CString (bs "a" ++ [x0a]), CMap [(CString (bs "l"), CList [CInt 4; CIdent "Color.RED" None])])])
     = Some (VMap [(VStr [97; 10], VStruct 0 [Some (VInt 7); Some (VList [VInt 4; VInt 1])])])
  /\ compile_const art1 [] (GMap false (GBase TString) (GStruct 0))
       (CMap [(CString (bs "a" ++ [x0a]), CMap [(CString (bs "l"), CList [CInt 4; CIdent "Color.RED" None])])])
     = Some (XDict false [(XStr (bs "a\n"),
         XNew 0 [(bs "l", XList false [XEnum 0 "GREEN"; XEnum 0 "RED"])])]).
Proof.
  split.
  { intros d [<-|[]]. split; [|split; [|split]].
    - intros m [<-|[<-|[<-|[]]]]; reflexivity.
    - reflexivity.
    - cbn. repeat constructor; cbn; intuition discriminate.
    - cbn. repeat constructor; cbn; intuition discriminate. }
  split.
  { intros k f [<-|[]] Hf. cbn [k_fields In] in Hf.
    destruct Hf as [<-|[<-|[]]]; split; reflexivity. }
  split; vm_compute; reflexivity.
Qed.

Example C72_prog_ok_used : prog_ok art1.
Proof.
  intros k [<-|[]]. split; [|split].
  - split; [|split].
    + cbn. repeat constructor; cbn; intuition discriminate.
    + intros n [<-|[<-|[]]] H; apply mem_In in H; discriminate H.
    + intros n [<-|[<-|[]]] H; apply mem_In in H; discriminate H.
  - intros H. discriminate H.
  - intros f [<-|[<-|[]]]; split; try reflexivity; exact Logic.I.
Qed.

Example C72_reference_used :
  meaning art [] (GBase TUuid) (CString (bs "{00112233-4455-6677-8899-AAbbccddeeff}"))
  = Some (VUuid [x00; x11; x22; x33; x44; x55; x66; x77; x88; x99; xaa; xbb; xcc; xdd; xee; xff])
  /\ meaning art [("U"%string, (GBase TUuid, CString (bs "00112233-4455-6677-8899-AAbbccddeeff")))]
       (GBase TUuid) (CIdent "U" None)
     = Some (VUuid [x00; x11; x22; x33; x44; x55; x66; x77; x88; x99; xaa; xbb; xcc; xdd; xee; xff]).
Proof. split; vm_compute; reflexivity. Qed.

(** A double 0.5, and a string named [from] with a quotation mark in it. *)
Example C72_module_used :
  meaning art [] (GBase TDouble) (CDouble 4602678819172646912)
    = Some (VDouble 4602678819172646912)
  /\ meaning art [] (GBase TDouble) (CInt (-3)) = Some (VDouble 13837309855095848960)
  /\ import_constants art
       [("HALF"%string, XFloat (emit_double 4602678819172646912));
        ("from"%string, XStr (escape_string [x71; x22]))]
     = Imported [("HALF"%string, PVal (VDouble 4602678819172646912));
                 ("from_"%string, PVal (VStr [113; 34]))].
Proof. split; [|split]; vm_compute; reflexivity. Qed.

Example C72_binary_used : ascii_only [x41; xff] = false
  /\ import_constants art [("A"%string, XInt (int_text 1));
                           ("B"%string, XBytes (escape_string [x41; xff]))] = SyntaxError
  /\ import_constants art [("B"%string, XBytes (escape_string [x41; x7f]))]
     = Imported [("B"%string, PVal (VBin [x41; x7f]))].
Proof. split; [|split]; vm_compute; reflexivity. Qed.

(** 1e-20 and -1e-20. *)
Example C72_small_double_used :
  4307583784117748259 mod 2 ^ 63 < 968 * 2 ^ 52
  /\ eval art (XFloat (emit_double 4307583784117748259)) = POk (PVal (VDouble 0))
  /\ eval art (XFloat (emit_double (2 ^ 63 + 4307583784117748259))) = POk (PVal (VDouble (2 ^ 63))).
Proof. split; [|split]; vm_compute; reflexivity. Qed.

(** [const list<i32> A = [1]  const list<i32> B = A]. *)
Example C72_container_used :
  compile_const art [("A"%string, (GList false (GBase TI32), CList [CInt 1]))]
    (GList false (GBase TI32)) (CIdent "A" None) = Some (XList false [])
  /\ compile_const art [] (GList false (GBase TI32)) (CIdent "NoSuch" None) = Some (XList false [])
  /\ compile_const art [] (GMap false (GBase TI32) (GBase TI32)) (CInt 5) = Some (XDict false []).
Proof. repeat split. Qed.

Example C72_keyword_used :
  compile_const art [] (GStruct 1) (CMap [(CString (bs "from"), CInt 1)])
  = Some (XNew 1 [(bs "from", XInt (int_text 1))])
  /\ eval art (XNew 1 [(bs "from", XInt (int_text 1))]) = PRaise ETypeError.
Proof. split; vm_compute; reflexivity. Qed.

Example C72_enum_used :
  by_value (mkgenum "Color" [("RED"%string, 1); ("OFF"%string, 0)]) 0 = Some ("OFF"%string, 0)
  /\ compile_const art [] (GEnum 0 false) (CString (bs "RED")) = Some (XEnum 0 "OFF")
  /\ compile_const art [] (GEnum 0 false) (CInt 3) = None.
Proof. repeat split. Qed.

Example C72_unhashable_used :
  compile_const art [] (GSet false (GList false (GBase TI32))) (CList [CList [CInt 1]])
  = Some (XSet false [XList false [XInt (int_text 1)]])
  /\ eval art (XSet false [XList false [XInt (int_text 1)]]) = PRaise ETypeError.
Proof. split; vm_compute; reflexivity. Qed.

(** Axioms used. *)
Print Assumptions C72_value.
Print Assumptions C72_reference.
Print Assumptions C72_module.
Print Assumptions C72_literal.
Print Assumptions C72_literal_exact.
Print Assumptions C72_binary_fails.
Print Assumptions C72_small_double_lost.
Print Assumptions C72_double_refuted.
Print Assumptions C72_infinite_fails.
Print Assumptions C72_container_loses.
Print Assumptions C72_map_loses.
Print Assumptions C72_double_reference_lost.
Print Assumptions C72_enum_accepts.
Print Assumptions C72_bool.
Print Assumptions C72_keyword_field_fails.
Print Assumptions C72_unhashable_fails.
