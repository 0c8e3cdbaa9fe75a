(** What the JSON protocols write is a JSON document. *)
From Coq Require Import ZArith List Bool Lia.
From Coq Require Import Init.Byte.
From Coq Require Import ZifyBool ZifyNat ZifyN.
From Verif Require Import Base Bytes BytesFacts Utf8 Utf8Facts Proto Spec Laws RoundTrip
  StructFacts Compact BinaryLaws JsonText JsonTextFacts Json JsonLaws SpecJson JsonFacts
  JsonStr SpecJsonDoc SimpleJson.
Import ListNotations.
Open Scope Z_scope.

(** * Numbers *)

Lemma digits_json l : l <> [] -> forallb is_digit l = true -> json_digits l.
Proof.
  intros H D. split; [exact H|]. rewrite forallb_forall in D. intros c Hc.
  specialize (D c Hc). unfold is_digit in D. lia.
Qed.

Lemma digits_head n : 0 < n -> hd 48 (digits n) <> 48.
Proof.
  intros Hn E. destruct (digits_spec n ltac:(lia)) as (V & D & N & L).
  specialize (L ltac:(lia)). destruct (digits n) as [|c r]; [congruence|].
  cbn [hd] in E. subst c. cbn [forallb] in D. apply andb_prop in D as [_ D].
  pose proof (digits_val_range r D) as R.
  change (48 :: r) with ([48] ++ r) in V. rewrite digits_val_app in V.
  change (digits_val [48]) with 0 in V. cbn [length] in L.
  replace (Z.of_nat (S (length r)) - 1) with (Z.of_nat (length r)) in L by lia. lia.
Qed.

Lemma digits_int n : 0 <= n -> json_int (digits n).
Proof.
  intros Hn. destruct (digits_spec n Hn) as (V & D & N & _).
  split; [apply digits_json; assumption|].
  destruct (Z.eq_dec n 0) as [->|H]; [left; reflexivity|right].
  apply digits_head. lia.
Qed.

Lemma int_number z : json_number (int_text z).
Proof.
  unfold int_text. destruct (z <? 0) eqn:E.
  - exists [45], (digits (- z)), [], []. rewrite !app_nil_r.
    split; [reflexivity|]. split; [right; reflexivity|].
    split; [apply digits_int; lia|]. split; left; reflexivity.
  - exists [], (digits z), [], []. rewrite !app_nil_r.
    split; [reflexivity|]. split; [left; reflexivity|].
    split; [apply digits_int; lia|]. split; left; reflexivity.
Qed.

Lemma point_frac l : forallb is_digit l = true -> json_frac (point l).
Proof.
  intros H. unfold point. destruct (strip0_spec l) as [z Hz].
  assert (D : forallb is_digit (strip0 l) = true).
  { rewrite Hz, forallb_app in H. apply andb_prop in H as [H _]. exact H. }
  destruct (strip0 l) as [|c f]; [left; reflexivity|right].
  exists (c :: f). split; [reflexivity|]. apply digits_json; [discriminate|exact D].
Qed.

Lemma strip0_head l : hd 48 l <> 48 -> strip0 l <> [].
Proof.
  intros H E. destruct (strip0_spec l) as [z Hz]. rewrite E in Hz. cbn [app] in Hz.
  subst l. destruct z; cbn [repeat hd] in H; congruence.
Qed.

Lemma firstn_hd n (l : list Z) : hd 48 l <> 48 -> hd 48 (firstn (S n) l) = hd 48 l.
Proof. destruct l; reflexivity. Qed.

Lemma layout_number k e sg : 10 ^ 16 <= k < 10 ^ 17 -> sg = [] \/ sg = [45] ->
  json_number (sg ++ g_layout k e).
Proof.
  intros Hk Hs. destruct (digits_spec k ltac:(lia)) as (_ & D & N & _).
  pose proof (digits_head k ltac:(lia)) as Hh.
  unfold g_layout. set (ds := digits k) in *. clearbody ds.
  assert (I : forall n, json_int (firstn (S n) ds)).
  { intros n. split; [|right; rewrite firstn_hd by exact Hh; exact Hh].
    apply digits_json; [destruct ds; [congruence|discriminate]|apply firstn_digits, D]. }
  destruct ((-4 <=? e) && (e <? 17)) eqn:Ee.
  - destruct (e <? 0) eqn:E0.
    + exists sg, [48], (46 :: repeat 48 (Z.to_nat (- e - 1)) ++ strip0 ds), [].
      rewrite app_nil_r. split; [reflexivity|]. split; [exact Hs|].
      split; [split; [split; [discriminate|intros c [<-|[]]; lia]|left; reflexivity]|].
      split; [right|left; reflexivity].
      eexists. split; [reflexivity|]. apply digits_json.
      * intros C. apply app_eq_nil in C as [_ C]. exact (strip0_head ds Hh C).
      * destruct (strip0_spec ds) as [z Hz].
        rewrite Hz, forallb_app in D. apply andb_prop in D as [D _].
        rewrite forallb_app, D, andb_true_r. apply forallb_forall.
        intros c Hc. apply repeat_spec in Hc. subst c. reflexivity.
    + exists sg, (firstn (Z.to_nat (e + 1)) ds), (point (skipn (Z.to_nat (e + 1)) ds)), [].
      rewrite app_nil_r. split; [reflexivity|]. split; [exact Hs|].
      split; [replace (Z.to_nat (e + 1)) with (S (Z.to_nat e)) by lia; apply I|].
      split; [apply point_frac, skipn_digits, D|left; reflexivity].
  - exists sg, (firstn 1 ds), (point (skipn 1 ds)),
      (101 :: (if e <? 0 then 45 else 43)
       :: (if Z.abs e <? 10 then 48 :: digits (Z.abs e) else digits (Z.abs e))).
    split; [reflexivity|]. split; [exact Hs|]. split; [apply I|].
    split; [apply point_frac, skipn_digits, D|]. right.
    exists 101, [if e <? 0 then 45 else 43],
      (if Z.abs e <? 10 then 48 :: digits (Z.abs e) else digits (Z.abs e)).
    split; [reflexivity|]. split; [left; reflexivity|].
    split; [destruct (e <? 0); auto|].
    destruct (digits_spec (Z.abs e) ltac:(lia)) as (_ & D' & N' & _).
    destruct (Z.abs e <? 10); apply digits_json; try assumption; try discriminate;
    cbn [forallb]; rewrite D'; reflexivity.
Qed.

Lemma double_number b : 0 <= b < 2 ^ 64 -> finite b = true -> json_number (dbl_text b).
Proof.
  intros Hb Hf. unfold finite in Hf. apply Z.ltb_lt in Hf.
  pose proof (Z.mod_pos_bound b DBL_SIGN eq_refl) as Hm.
  pose proof (Z.div_mod b DBL_SIGN ltac:(discriminate)) as Ed.
  assert (Hq : b / DBL_SIGN = 0 \/ b / DBL_SIGN = 1).
  { assert (0 <= b / DBL_SIGN) by (apply Z.div_pos; [lia|reflexivity]).
    assert (b / DBL_SIGN < 2) by (apply Z.div_lt_upper_bound; [reflexivity|exact (proj2 Hb)]).
    lia. }
  set (a := b mod DBL_SIGN) in *. clearbody a.
  assert (Eb : b = a \/ b = a + DBL_SIGN) by (destruct Hq as [Hq|Hq]; rewrite Hq in Ed; lia).
  clear Ed Hq. destruct (Z.eq_dec a 0) as [->|Ha].
  - assert (Z0 : json_int [48])
      by (split; [split; [discriminate|intros c [<-|[]]; lia]|left; reflexivity]).
    destruct Eb as [->| ->]; [exists [], [48], [], []|exists [45], [48], [], []];
      (split; [reflexivity|]); split; auto; split; auto; split; left; reflexivity.
  - destruct (dbl_text_pos a) as (k & e & Hk & He & T1 & T2 & R); [lia|].
    destruct Eb as [->| ->]; [rewrite T1|rewrite T2].
    + apply (layout_number k e []); auto.
    + apply (layout_number k e [45]); auto.
Qed.

(** * Documents *)

Definition ok_string (s : list Z) : Prop :=
  Forall (fun c => scalar c = true) s /\ clean_string s = true.

Fixpoint doc_ok (j : json) : Prop :=
  match j with
  | JNum t => json_number t
  | JStr s => ok_string s
  | JArr l => fold_right (fun x P => doc_ok x /\ P) True l
  | JObj l => fold_right (fun m P => ok_string (fst m) /\ doc_ok (snd m) /\ P) True l
  | _ => True
  end.

Section JsonInd.
Variable P : json -> Prop.
Hypotheses (Hnull : P JNull) (Hbool : forall b, P (JBool b)) (Hnum : forall t, P (JNum t))
  (Hstr : forall s, P (JStr s)) (Harr : forall l, Forall P l -> P (JArr l))
  (Hobj : forall l, Forall (fun m => P (snd m)) l -> P (JObj l)).
Fixpoint json_ind' (j : json) : P j :=
  match j with
  | JNull => Hnull
  | JBool b => Hbool b
  | JNum t => Hnum t
  | JStr s => Hstr s
  | JArr l => Harr l ((fix go l : Forall P l :=
                         match l with
                         | [] => Forall_nil _
                         | x :: r => Forall_cons _ (json_ind' x) (go r)
                         end) l)
  | JObj l => Hobj l ((fix go l : Forall (fun m => P (snd m)) l :=
                         match l with
                         | [] => Forall_nil _
                         | x :: r => Forall_cons _ (json_ind' (snd x)) (go r)
                         end) l)
  end.
End JsonInd.

Lemma print_string_ok s : ok_string s -> json_string (print_string s) s.
Proof.
  intros [Hs Hc]. exists (flat_map sj_char s). split; [|reflexivity].
  rewrite <- sj_escape. apply (proj2 (escape_json_chars s Hs)).
  unfold clean_string in Hc. rewrite forallb_forall in *. intros c H. specialize (Hc c H).
  unfold clean_char in Hc. unfold raw_control. cbn [existsb] in Hc. lia.
Qed.

Lemma ws_nil : json_ws [].
Proof. intros c []. Qed.

Lemma commas_cons x y l : commas (x :: y :: l) = x ++ 44 :: commas (y :: l).
Proof. reflexivity. Qed.

Theorem print_ok j : doc_ok j -> json_text (json_print j) j.
Proof.
  induction j as [|b|t|s|l IH|l IH] using json_ind'; intros H; cbn [json_print].
  - constructor.
  - destruct b; constructor.
  - constructor. exact H.
  - constructor. apply print_string_ok, H.
  - cbn [doc_ok] in H. destruct l as [|x l]; [apply (jt_arr0 []), ws_nil|].
    apply jt_arr. revert x IH H. induction l as [|y l IHl]; intros x IH H;
      inversion IH as [|? ? Hx IH']; subst; cbn [fold_right] in H; destruct H as [H1 H2].
    + apply je_one. auto.
    + cbn [map]. rewrite commas_cons. apply je_cons; auto. apply (IHl y); auto.
  - cbn [doc_ok] in H. destruct l as [|x l]; [apply (jt_obj0 []), ws_nil|].
    apply jt_obj. revert x IH H. induction l as [|y l IHl]; intros x IH H;
      inversion IH as [|? ? Hx IH']; subst; cbn [fold_right] in H;
      destruct H as (H1 & H2 & H3); destruct x as [k x]; cbn [fst snd] in *.
    + cbn [map commas fst snd].
      apply (jm_one [] (print_string k) k []); try apply ws_nil; auto.
      apply print_string_ok, H1.
    + cbn [map]. rewrite commas_cons. cbn [fst snd].
      rewrite <- app_assoc. cbn [app].
      apply (jm_cons [] (print_string k) k []); try apply ws_nil; auto.
      * apply print_string_ok, H1.
      * apply (IHl y); auto.
Qed.

(** * UTF-8 *)

Definition enc8 (u : list Z) (b : list byte) : Prop := utf8_encode u = Some b.

Lemma enc8_cons c u b : 0 <= c < 128 -> enc8 u b -> enc8 (c :: u) (z2b c :: b).
Proof.
  intros Hc H. unfold enc8. cbn [utf8_encode]. rewrite utf8_char_ascii by lia.
  unfold enc8 in H. rewrite H. reflexivity.
Qed.

Lemma enc8_snoc c u b : 0 <= c < 128 -> enc8 u b -> enc8 (u ++ [c]) (b ++ [z2b c]).
Proof.
  intros Hc H. apply utf8_encode_app; [exact H|].
  cbn [utf8_encode]. rewrite utf8_char_ascii by lia. reflexivity.
Qed.

Lemma enc8_commas us bs : Forall2 enc8 us bs -> enc8 (commas us) (join bs).
Proof.
  induction 1 as [|u b us bs H1 H2 IH]; [reflexivity|].
  destruct H2 as [|u' b' us bs H3 H4].
  - exact H1.
  - apply utf8_encode_app; [exact H1|]. apply enc8_cons; [lia|exact IH].
Qed.

Lemma enc8_arr us bs : Forall2 enc8 us bs -> enc8 (91 :: commas us ++ [93]) (array bs).
Proof.
  intros H. apply enc8_cons; [lia|]. apply enc8_snoc; [lia|]. apply enc8_commas, H.
Qed.

Lemma enc8_obj us bs : Forall2 enc8 us bs -> enc8 (123 :: commas us ++ [125]) (object bs).
Proof.
  intros H. apply enc8_cons; [lia|]. apply enc8_snoc; [lia|]. apply enc8_commas, H.
Qed.

Lemma enc8_string s b : utf8_encode s = Some b -> enc8 (print_string s) (sj_string s).
Proof.
  intros H. destruct (escape_encodes s b H) as (e & He & _). rewrite sj_escape in He.
  unfold print_string, sj_string. rewrite He. apply enc8_cons; [lia|].
  apply enc8_snoc; [lia|]. exact He.
Qed.

Lemma enc8_plain s : forallb plain_char s = true -> enc8 s (map z2b s).
Proof. intros H. apply (etext_plain s H). Qed.

Lemma print_plain s : forallb plain_char s = true ->
  enc8 (print_string s) (quoted (map z2b s)).
Proof.
  intros H. destruct (etext_plain s H) as [E1 E2].
  pose proof (enc8_string s _ E1) as E. rewrite <- (jstr_spec s _ E1) in E.
  unfold jstr in E. rewrite E2 in E. exact E.
Qed.

Lemma plain_ok s : forallb plain_char s = true -> ok_string s.
Proof.
  intros H. split.
  - apply utf8_encode_scalar. eexists. apply enc8_plain, H.
  - unfold clean_string. rewrite forallb_forall in *. intros c Hc. specialize (H c Hc).
    unfold plain_char in H. unfold clean_char. lia.
Qed.

Lemma type_plain t : forallb plain_char (sj_type t) = true.
Proof. destruct t; reflexivity. Qed.
Lemma int_plain z : forallb plain_char (int_text z) = true.
Proof. apply num_plain, int_text_num. Qed.

Lemma enc8_type t : enc8 (print_string (sj_type t)) (sj_string (sj_type t)).
Proof. eapply enc8_string. apply enc8_plain, type_plain. Qed.

Lemma enc8_member k kb x b : enc8 k kb -> enc8 x b -> enc8 (k ++ 58 :: x) (kb ++ x3a :: b).
Proof. intros H1 H2. apply utf8_encode_app; [exact H1|]. apply enc8_cons; [lia|exact H2]. Qed.

(** * TJSONProtocol *)

Section TJ.
Variable env : schema.
Variables SL CL : Z.

Fixpoint tj_fields (fs : list (option value)) (ds : list fielddef) : list (list Z * json) :=
  match fs, ds with
  | f :: fs', d :: ds' =>
      match f with
      | Some x => [(int_text (f_id d),
                    JObj [(sj_type (f_ty d), tj_doc env (f_ty d) x)])]
      | None => []
      end ++ tj_fields fs' ds'
  | _, _ => []
  end.

Lemma tj_struct n m fs ds : nth_error env m = Some ds ->
  tj_doc env (TStruct n) (VStruct m fs) = JObj (tj_fields fs ds).
Proof. intros H. cbn [tj_doc]. rewrite H. reflexivity. Qed.

Definition pmember (m : list Z * json) : list Z :=
  print_string (fst m) ++ 58 :: json_print (snd m).

Lemma double_plain d : between 0 18446744073709551615 d = true -> finite d = true ->
  forallb plain_char (dbl_text d) = true.
Proof.
  intros H F. apply between_spec in H.
  apply num_plain. apply dbl_text_chars; [lia|exact F].
Qed.

Lemma key_enc t k : hashable t = true -> wfd finite env SL CL t k = true ->
  enc8 (print_string (key_text dbl_text k)) (sj_value env true t k).
Proof.
  intros Hh Hw. destruct t; try discriminate Hh; destruct k; try discriminate Hw;
    cbn [sj_value key_text]; try (apply print_plain, int_plain).
  - cbn [wfd base_okd] in Hw. destruct (finite _) eqn:F; [|discriminate].
    apply print_plain, double_plain; assumption.
  - cbn [wfd base_okd] in Hw. destruct (utf8_encode _) as [b|] eqn:E; [|discriminate].
    eapply enc8_string, E.
  - apply print_plain, b64encode_plain.
  - eapply enc8_string. apply etext_plain, uuid_text_plain.
Qed.

Lemma tj_enc v : forall t, wfd finite env SL CL t v = true ->
  enc8 (json_print (tj_doc env t v)) (sj_value env false t v).
Proof.
  induction v using value_rect'; intros t Hwf.
  1-6: destruct t; try discriminate Hwf; cbn [tj_doc scalar_doc sj_value json_print];
    try (apply enc8_plain, int_plain).
  - cbn [wfd base_okd] in Hwf. destruct (finite _) eqn:F; [|discriminate].
    apply enc8_plain, double_plain; assumption.
  - cbn [wfd base_okd] in Hwf. destruct (utf8_encode _) as [b|] eqn:E; [|discriminate].
    eapply enc8_string, E.
  - apply print_plain, b64encode_plain.
  - eapply enc8_string. apply etext_plain, uuid_text_plain.
  - destruct t; try discriminate Hwf. cbn [wfd] in Hwf. apply andb_prop in Hwf as [_ Hwf].
    cbn [tj_doc sj_value json_print]. apply enc8_arr. cbn [map].
    constructor; [apply enc8_type|]. constructor; [apply enc8_plain, int_plain|].
    generalize (Z.of_nat (length l)); intros _.
    induction H as [|x l Hx _ IH]; [constructor|].
    cbn [forallb] in Hwf. apply andb_prop in Hwf as [Hw1 Hw2].
    cbn [map]. constructor; auto.
  - destruct t; try discriminate Hwf. cbn [wfd] in Hwf. apply andb_prop in Hwf as [_ Hwf].
    cbn [tj_doc sj_value json_print]. apply enc8_arr. cbn [map].
    constructor; [apply enc8_type|]. constructor; [apply enc8_plain, int_plain|].
    generalize (Z.of_nat (length l)); intros _.
    induction H as [|x l Hx _ IH]; [constructor|].
    cbn [forallb] in Hwf. apply andb_prop in Hwf as [Hw1 Hw2].
    cbn [map]. constructor; auto.
  - destruct t; try discriminate Hwf. cbn [wfd] in Hwf. apply andb_prop in Hwf as [Hk Hwf].
    apply andb_prop in Hk as [Hk _]. apply andb_prop in Hk as [_ Hk].
    cbn [tj_doc sj_value json_print]. apply enc8_arr. cbn [map].
    constructor; [apply enc8_type|]. constructor; [apply enc8_type|].
    constructor; [apply enc8_plain, int_plain|]. constructor; [|constructor].
    cbn [json_print]. fold pmember. apply enc8_obj.
    generalize (Z.of_nat (length l)); intros _.
    induction H as [|[k x] l [_ Hx] _ IH]; [constructor|].
    cbn [forallb fst snd] in *. apply andb_prop in Hwf as [Hw1 Hw2].
    apply andb_prop in Hw1 as [Hwk Hwx].
    cbn [map]. constructor; auto. unfold pmember at 1. cbn [fst snd].
    apply enc8_member; [|auto]. apply key_enc; assumption.
  - destruct t; try discriminate Hwf. rewrite wf_struct in Hwf.
    apply andb_prop in Hwf as [Hn Hwf]. apply Nat.eqb_eq in Hn. subst n0.
    destruct (nth_error env n) as [ds|] eqn:E; [|discriminate].
    rewrite (tj_struct n n fs ds E), (sj_struct env false n fs ds E).
    cbn [json_print]. fold pmember. apply enc8_obj. clear E.
    revert ds Hwf. induction H as [|f fs Hf _ IH]; intros [|d ds] Hwf;
      cbn [tj_fields fds map]; try (constructor; fail); try discriminate.
    cbn [wf_fields] in Hwf. apply andb_prop in Hwf as [Hw1 Hw2].
    destruct f as [x|]; cbn [app map]; [constructor|]; auto.
    unfold pmember at 1, fd_text. cbn [fst snd json_print map].
    apply enc8_member; [apply print_plain, int_plain|]. fold pmember.
    apply enc8_obj. constructor; [|constructor].
    apply enc8_member; [apply enc8_type|]. auto.
Qed.

Lemma fold_map_ok (f : value -> json) l :
  Forall (fun x => doc_ok (f x)) l -> fold_right (fun x P => doc_ok x /\ P) True (map f l).
Proof. induction 1; cbn [map fold_right]; auto. Qed.

Lemma string_ok s b : utf8_encode s = Some b -> clean_string s = true -> ok_string s.
Proof. intros H Hc. split; [apply utf8_encode_scalar; eauto|exact Hc]. Qed.

Lemma tj_ok v : forall t, wfd finite env SL CL t v = true -> clean v = true ->
  doc_ok (tj_doc env t v).
Proof.
  induction v using value_rect'; intros t Hwf Hc.
  1-6: destruct t; try discriminate Hwf; cbn [tj_doc scalar_doc doc_ok clean] in *;
    try apply int_number.
  - cbn [wfd base_okd] in Hwf. destruct (finite _) eqn:F; [|discriminate].
    apply between_spec in Hwf. apply double_number; [lia|exact F].
  - cbn [wfd base_okd] in Hwf. destruct (utf8_encode _) as [b|] eqn:E; [|discriminate].
    eapply string_ok; eassumption.
  - apply plain_ok, b64encode_plain.
  - apply plain_ok, uuid_text_plain.
  - destruct t; try discriminate Hwf. cbn [wfd] in Hwf. apply andb_prop in Hwf as [_ Hwf].
    cbn [tj_doc doc_ok fold_right clean] in *.
    split; [apply plain_ok, type_plain|]. split; [apply int_number|].
    apply fold_map_ok. rewrite forallb_forall in *. rewrite Forall_forall in *. auto.
  - destruct t; try discriminate Hwf. cbn [wfd] in Hwf. apply andb_prop in Hwf as [_ Hwf].
    cbn [tj_doc doc_ok fold_right clean] in *.
    split; [apply plain_ok, type_plain|]. split; [apply int_number|].
    apply fold_map_ok. rewrite forallb_forall in *. rewrite Forall_forall in *. auto.
  - destruct t; try discriminate Hwf. cbn [wfd] in Hwf. apply andb_prop in Hwf as [Hk Hwf].
    apply andb_prop in Hk as [Hk _]. apply andb_prop in Hk as [_ Hk].
    cbn [tj_doc doc_ok fold_right clean] in *.
    split; [apply plain_ok, type_plain|]. split; [apply plain_ok, type_plain|].
    split; [apply int_number|]. split; [|exact I].
    generalize (Z.of_nat (length l)); intros _.
    induction H as [|[k x] l [_ Hx] _ IH]; [exact I|].
    cbn [forallb fst snd] in *. apply andb_prop in Hwf as [Hw1 Hw2].
    apply andb_prop in Hw1 as [Hwk Hwx]. apply andb_prop in Hc as [Hc1 Hc2].
    apply andb_prop in Hc1 as [Hck Hcx]. cbn [map fold_right fst snd].
    split; [|split; auto]. clear IH Hx.
    destruct t1; try discriminate Hk; destruct k; try discriminate Hwk;
      cbn [key_text wfd base_okd clean] in *; try (apply plain_ok, int_plain).
    + destruct (finite _) eqn:F; [|discriminate]. apply plain_ok, double_plain; assumption.
    + destruct (utf8_encode _) as [b|] eqn:E; [|discriminate].
      eapply string_ok; eassumption.
    + apply plain_ok, b64encode_plain.
    + apply plain_ok, uuid_text_plain.
  - destruct t; try discriminate Hwf. rewrite wf_struct in Hwf.
    apply andb_prop in Hwf as [Hn Hwf]. apply Nat.eqb_eq in Hn. subst n0.
    destruct (nth_error env n) as [ds|] eqn:E; [|discriminate].
    rewrite (tj_struct n n fs ds E). cbn [doc_ok clean] in *. clear E.
    revert ds Hwf. induction H as [|f fs Hf _ IH]; intros [|d ds] Hwf;
      cbn [tj_fields]; try exact I.
    cbn [wf_fields forallb] in *. apply andb_prop in Hwf as [Hw1 Hw2].
    apply andb_prop in Hc as [Hc1 Hc2].
    destruct f as [x|]; cbn [app fold_right fst snd doc_ok]; [|auto].
    split; [apply plain_ok, int_plain|]. split; [|auto].
    split; [apply plain_ok, type_plain|]. auto.
Qed.

Lemma json_bytes_enc j b : enc8 (json_print j) b -> json_bytes j = b.
Proof. unfold json_bytes, enc8. intros ->. reflexivity. Qed.

End TJ.
