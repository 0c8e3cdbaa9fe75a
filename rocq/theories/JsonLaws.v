(** TJSONProtocol meets the laws of Laws.v. *)
From Coq Require Import ZArith List Bool Lia.
From Coq Require Import Init.Byte.
From Coq Require Import ZifyBool ZifyNat ZifyN.
From Verif Require Import Base Bytes BytesFacts Utf8 Utf8Facts Proto Spec Laws
  Compact BinaryLaws JsonText JsonTextFacts Json.
Import ListNotations.
Open Scope Z_scope.

(** * UTF-8 of concatenations *)

Lemma utf8_encode_app a b x y : utf8_encode a = Some x -> utf8_encode b = Some y ->
  utf8_encode (a ++ b) = Some (x ++ y).
Proof.
  revert x. induction a as [|c a IH]; intros x Ha Hb.
  - injection Ha as <-. exact Hb.
  - cbn [utf8_encode app] in *. destruct (utf8_char c) as [bc|]; [|discriminate].
    destruct (utf8_encode a) as [ba|]; [|discriminate]. injection Ha as <-.
    rewrite (IH ba eq_refl Hb), app_assoc. reflexivity.
Qed.

Lemma utf8_encode_app_inv a b z : utf8_encode (a ++ b) = Some z ->
  exists x y, utf8_encode a = Some x /\ utf8_encode b = Some y /\ z = x ++ y.
Proof.
  revert z. induction a as [|c a IH]; intros z H.
  - exists [], z. auto.
  - cbn [app utf8_encode] in *. destruct (utf8_char c) as [bc|]; [|discriminate].
    destruct (utf8_encode (a ++ b)) as [r|] eqn:E; [|discriminate].
    injection H as <-. destruct (IH r eq_refl) as (x & y & Ex & Ey & Er).
    rewrite Ex. exists (bc ++ x), y. split; [reflexivity|]. split; [exact Ey|].
    rewrite Er, app_assoc. reflexivity.
Qed.

Lemma utf8_char_ascii c : 0 <= c < 128 -> utf8_char c = Some [z2b c].
Proof.
  intros H. unfold utf8_char. replace (scalar c) with true by (unfold scalar; lia).
  cbn [negb]. destruct (c <? 128) eqn:E; [reflexivity|lia].
Qed.

Lemma utf8_encode_ascii s : forallb (fun c => (0 <=? c) && (c <? 128)) s = true ->
  utf8_encode s = Some (ascii s).
Proof.
  induction s as [|c s IH]; intros H; [reflexivity|]. cbn [forallb] in H.
  apply andb_prop in H as [H1 H2]. cbn [utf8_encode ascii map].
  rewrite utf8_char_ascii, (IH H2) by lia. reflexivity.
Qed.

Lemma high_byte z : 128 <= z < 256 -> (128 <=? b2z (z2b z)) = true.
Proof. intros H. rewrite b2z_z2b, Z.mod_small; lia. Qed.

(** Bytes of a character above 0x7f. *)
Lemma utf8_char_high c b : 128 <= c -> utf8_char c = Some b ->
  b <> [] /\ forallb (fun x => 128 <=? b2z x) b = true.
Proof.
  intros H E. unfold utf8_char in E. destruct (scalar c) eqn:Es; [|discriminate].
  cbn [negb] in E. unfold scalar in Es. destruct (c <? 128) eqn:E1; [lia|].
  destruct (c <? 2048) eqn:E2; [|destruct (c <? 65536) eqn:E3];
    apply some_inj in E; subst b;
    (split; [discriminate|]); cbn [forallb];
    rewrite !high_byte; try reflexivity;
    Z.to_euclidean_division_equations; lia.
Qed.

Definition high (c : Z) : bool := 128 <=? c.

Lemma utf8_high h b : forallb high h = true -> utf8_encode h = Some b ->
  forallb (fun x => 128 <=? b2z x) b = true.
Proof.
  revert b. induction h as [|c h IH]; intros b H E.
  - injection E as <-. reflexivity.
  - cbn [forallb utf8_encode] in *. apply andb_prop in H as [H1 H2].
    destruct (utf8_char c) as [bc|] eqn:Ec; [|discriminate].
    destruct (utf8_encode h) as [bh|]; [|discriminate]. injection E as <-.
    unfold high in H1. rewrite forallb_app, (IH bh H2 eq_refl).
    destruct (utf8_char_high c bc ltac:(lia) Ec) as [_ ->]. reflexivity.
Qed.

(** * Escaping *)

(** The bytes between the quotes. *)
Definition etext (s : list Z) : list byte :=
  match utf8_encode (escape s) with Some b => b | None => [] end.

Lemma escape_char_high c : 128 <= c -> escape_char c = None.
Proof.
  intros H. unfold escape_char.
  repeat match goal with |- context [?a =? ?b] => destruct (a =? b) eqn:?; [lia|] end.
  reflexivity.
Qed.

Lemma escape_char_spec c e : escape_char c = Some e ->
  0 <= c < 128 /\ 0 <= e < 128 /\ e <> 117 /\ unescape_char e = Some c.
Proof.
  unfold escape_char.
  repeat match goal with |- context [?a =? ?b] => destruct (a =? b) eqn:? end;
    intros H; try discriminate; injection H as <-;
    (split; [lia|]; split; [lia|]; split; [lia|]);
    match goal with H : (c =? _) = true |- _ => apply Z.eqb_eq in H; subst c end;
    reflexivity.
Qed.

Lemma escape_char_none c : escape_char c = None -> c <> 34 /\ c <> 92.
Proof.
  unfold escape_char. destruct (c =? 34) eqn:E1; [discriminate|].
  destruct (c =? 92) eqn:E2; [discriminate|]. lia.
Qed.

Lemma escape_high h : forallb high h = true -> escape h = h.
Proof.
  induction h as [|c h IH]; intros H; [reflexivity|]. cbn [forallb] in H.
  apply andb_prop in H as [H1 H2]. unfold high in H1.
  unfold escape in *. cbn [flat_map]. rewrite escape_char_high by lia.
  cbn [app]. f_equal. apply IH, H2.
Qed.

Lemma escape_app a b : escape (a ++ b) = escape a ++ escape b.
Proof. apply flat_map_app. Qed.

Lemma escape_encodes s b : utf8_encode s = Some b ->
  exists e, utf8_encode (escape s) = Some e
            /\ (length e <= 2 * length b)%nat.
Proof.
  revert b. induction s as [|c s IH]; intros b H.
  - injection H as <-. exists []. split; [reflexivity|cbn; lia].
  - cbn [utf8_encode] in H. destruct (utf8_char c) as [bc|] eqn:Ec; [|discriminate].
    destruct (utf8_encode s) as [bs|]; [|discriminate]. injection H as <-.
    destruct (IH bs eq_refl) as (e & He & Hl).
    change (escape (c :: s)) with
      (match escape_char c with Some e => [92; e] | None => [c] end ++ escape s).
    destruct (escape_char c) as [x|] eqn:Ex.
    + apply escape_char_spec in Ex as (Hc & Hx & _ & _).
      assert (E2 : utf8_encode [92; x] = Some [z2b 92; z2b x]).
      { cbn [utf8_encode]. rewrite !utf8_char_ascii by lia. reflexivity. }
      rewrite utf8_char_ascii in Ec by lia. injection Ec as <-.
      exists ([z2b 92; z2b x] ++ e). split; [apply utf8_encode_app; assumption|].
      rewrite !app_length. cbn [length] in *. lia.
    + exists (bc ++ e). split.
      * apply (utf8_encode_app [c] (escape s)); [|exact He].
        cbn [utf8_encode]. rewrite Ec, app_nil_r. reflexivity.
      * rewrite !app_length. lia.
Qed.

Lemma etext_app a b x y : utf8_encode a = Some x -> utf8_encode b = Some y ->
  etext (a ++ b) = etext a ++ etext b.
Proof.
  intros Ha Hb. destruct (escape_encodes a x Ha) as (ea & Ea & _).
  destruct (escape_encodes b y Hb) as (eb & Eb & _).
  unfold etext. rewrite escape_app, (utf8_encode_app _ _ ea eb Ea Eb), Ea, Eb.
  reflexivity.
Qed.

Lemma etext_plain s : forallb plain_char s = true ->
  utf8_encode s = Some (ascii s) /\ etext s = ascii s.
Proof.
  intros H.
  assert (Ha : forallb (fun c => (0 <=? c) && (c <? 128)) s = true).
  { rewrite forallb_forall in *. intros c Hc. specialize (H c Hc).
    unfold plain_char in H. lia. }
  pose proof (utf8_encode_ascii s Ha) as E. split; [exact E|].
  unfold etext. replace (escape s) with s; [rewrite E; reflexivity|].
  clear Ha E. induction s as [|c s IH]; [reflexivity|]. cbn [forallb] in H.
  apply andb_prop in H as [H1 H2]. unfold escape in *. cbn [flat_map].
  unfold plain_char in H1.
  assert (En : escape_char c = None).
  { unfold escape_char.
    repeat match goal with |- context [?a =? ?b] => destruct (a =? b) eqn:?; [lia|] end.
    reflexivity. }
  rewrite En. cbn [app]. f_equal. apply IH, H2.
Qed.

(** Split off the characters above 0x7f at the front. *)
Fixpoint span_high (s : list Z) : list Z * list Z :=
  match s with
  | c :: r => if high c then let (a, b) := span_high r in (c :: a, b) else ([], s)
  | [] => ([], [])
  end.

Lemma span_high_spec s : s = fst (span_high s) ++ snd (span_high s)
  /\ forallb high (fst (span_high s)) = true
  /\ match snd (span_high s) with c :: _ => high c = false | [] => True end.
Proof.
  induction s as [|c s (IH1 & IH2 & IH3)]; [repeat split; reflexivity|].
  cbn [span_high]. destruct (high c) eqn:E.
  - destruct (span_high s) as [a b]. cbn [fst snd] in *. split; [rewrite IH1 at 1; reflexivity|].
    split; [cbn [forallb]; rewrite E, IH2; reflexivity|exact IH3].
  - cbn [fst snd]. split; [reflexivity|]. split; [reflexivity|exact E].
Qed.

(** The first byte of an escaped text that does not start with a character
    above 0x7f. *)
Lemma etext_head s q : match s with c :: _ => high c = false | [] => True end ->
  (exists b, utf8_encode s = Some b) -> b2z q < 128 ->
  exists h t, etext s ++ [q] = h :: t /\ b2z h < 128.
Proof.
  intros H (b & Hb) Hq. destruct s as [|c s].
  - exists q, []. auto.
  - cbn [utf8_encode] in Hb. destruct (utf8_char c) as [bc|] eqn:Ec; [|discriminate].
    destruct (utf8_encode s) as [bs|] eqn:Es; [|discriminate]. unfold high in H.
    assert (Hc : 0 <= c < 128).
    { unfold utf8_char in Ec. destruct (scalar c) eqn:Sc; [|discriminate].
      unfold scalar in Sc. lia. }
    change (c :: s) with ([c] ++ s). rewrite (etext_app [c] s [z2b c] bs);
      [|cbn [utf8_encode]; rewrite utf8_char_ascii by lia; reflexivity|exact Es].
    unfold etext at 1. unfold escape. cbn [flat_map]. rewrite app_nil_r.
    destruct (escape_char c) as [x|] eqn:Ex.
    + pose proof (escape_char_spec c x Ex) as (_ & Hx & _ & _).
      cbn [utf8_encode]. rewrite !utf8_char_ascii by lia. cbn [app].
      eexists; eexists; split; [reflexivity|]. rewrite b2z_z2b. cbn. lia.
    + cbn [utf8_encode]. rewrite !utf8_char_ascii by lia. cbn [app].
      eexists; eexists; split; [reflexivity|].
      rewrite b2z_z2b, Z.mod_small; lia.
Qed.

(** * Contexts *)

Definition adv (t : ctx) : ctx :=
  match t with
  | CBase => CBase
  | CList _ => CList false
  | CPair true _ => CPair false true
  | CPair false colon => CPair false (negb colon)
  end.

(** The stack after one value. *)
Definition j_nxt (c : list ctx) : list ctx :=
  match c with t :: r => adv t :: r | [] => [] end.

(** What comes before a value. *)
Definition sep (c : list ctx) : list byte :=
  match top c with
  | CList false => [COMMA]
  | CPair false true => [COLON]
  | CPair false false => [COMMA]
  | _ => []
  end.

Definition esc (c : list ctx) : bool :=
  match top c with CPair _ colon => colon | _ => false end.

Definition j_wrep (c : list ctx) (x : jst) : Prop := stack x = c.

Definition j_rrep (c : list ctx) (x : jst) (i rest : list byte) : Prop :=
  stack x = c
  /\ match ahead x with
     | None => rest = i
     | Some d => exists b, d = [b] /\ rest = b :: i
     end.

Notation WJ := (Wr j_wrep).
Notation RJ := (Rd j_rrep).

Lemma WJ_bind c1 c2 c3 b1 b2 m1 (m2 : MJ unit) :
  WJ c1 c2 b1 m1 -> WJ c2 c3 b2 m2 -> WJ c1 c3 (b1 ++ b2) (m1 ;;; m2).
Proof.
  intros H1 H2 x i o d Hx. destruct (H1 x i o d Hx) as (x1 & E1 & R1).
  destruct (H2 x1 i (o ++ b1) d R1) as (x2 & E2 & R2).
  exists x2. unfold bind. rewrite E1, E2, app_assoc. auto.
Qed.

Lemma WJ_write c bs : WJ c c bs (jwrite bs).
Proof. intros x i o d Hx. exists x. auto. Qed.

(** A step that only changes the stack. *)
Lemma WJ_bind0 c1 c2 c3 bs m1 (m2 : MJ unit) :
  WJ c1 c2 [] m1 -> WJ c2 c3 bs m2 -> WJ c1 c3 bs (m1 ;;; m2).
Proof. intros H1 H2. exact (WJ_bind c1 c2 c3 [] bs m1 m2 H1 H2). Qed.

Lemma WJ_ctx c : WJ c (j_nxt c) (sep c) ctx_write.
Proof.
  intros [s h] i o d Hx. unfold j_wrep in *. cbn [stack] in Hx. subst s.
  exists (mkj (j_nxt c) h). split; [|reflexivity].
  destruct c as [|[|[]|[] []] c]; try reflexivity;
    cbv [ctx_write doIO get_stack set_stack set_top get_px set_px bind ret jwrite
         twrite px stack ahead top j_nxt adv sep inp out depth negb];
    rewrite ?app_nil_r; reflexivity.
Qed.

Lemma WJ_push c t : WJ c (t :: c) [] (pushContext t).
Proof.
  intros [s h] i o d Hx. unfold j_wrep in *. cbn [stack] in Hx. subst s.
  exists (mkj (t :: c) h). rewrite app_nil_r. split; reflexivity.
Qed.

Lemma WJ_pop c t : WJ (t :: c) c [] popContext.
Proof.
  intros [s h] i o d Hx. unfold j_wrep in *. cbn [stack] in Hx. subst s.
  exists (mkj c h). rewrite app_nil_r. split; reflexivity.
Qed.

Lemma WJ_eq c c' b b' m : WJ c c' b m -> b = b' -> WJ c c' b' m.
Proof. intros H <-. exact H. Qed.

(** A number as it stands after the separator. *)
Definition num (c : list ctx) (t : list Z) : list byte :=
  if esc (j_nxt c) then QUOTE :: ascii t ++ [QUOTE] else ascii t.

Lemma WJ_number c t : WJ c (j_nxt c) (sep c ++ num c t) (writeJSONNumber t).
Proof.
  unfold writeJSONNumber. eapply WJ_bind; [apply WJ_ctx|].
  assert (H : WJ (j_nxt c) (j_nxt c) (num c t)
    (if esc (j_nxt c) then jwrite [QUOTE] ;;; jwrite (ascii t) ;;; jwrite [QUOTE]
     else jwrite (ascii t))).
  { unfold num. destruct (esc (j_nxt c)); [|apply WJ_write].
    refine (WJ_bind _ (j_nxt c) _ [QUOTE] (ascii t ++ [QUOTE]) _ _ (WJ_write _ _) _).
    apply (WJ_bind _ (j_nxt c)); apply WJ_write. }
  intros x i o d Hx. specialize (H x i o d Hx). unfold j_wrep in Hx.
  unfold escapeNum, get_stack, get_px, bind, ret. cbn [px].
  rewrite Hx. exact H.
Qed.

(** A string with its quotes. *)
Definition jstr (s : list Z) : list byte := QUOTE :: etext s ++ [QUOTE].

Lemma utf8_quoted s b : utf8_encode s = Some b ->
  utf8_encode (34 :: escape s ++ [34]) = Some (jstr s).
Proof.
  intros H. destruct (escape_encodes s b H) as (e & He & _).
  pose proof (utf8_encode_app (escape s) [34] e [QUOTE] He eq_refl) as E.
  pose proof (utf8_encode_app [34] (escape s ++ [34]) [QUOTE] (e ++ [QUOTE]) eq_refl E) as E2.
  cbn [app] in E2. rewrite E2.
  unfold jstr, etext. rewrite He. reflexivity.
Qed.

Lemma WJ_string c s b : utf8_encode s = Some b ->
  WJ c (j_nxt c) (sep c ++ jstr s) (writeJSONString s).
Proof.
  intros H. unfold writeJSONString. eapply WJ_bind; [apply WJ_ctx|].
  unfold encode_utf8. rewrite (utf8_quoted s b H). apply WJ_write.
Qed.

Lemma WJ_base64 c b :
  WJ c (j_nxt c) (sep c ++ QUOTE :: ascii (b64encode b) ++ [QUOTE]) (writeJSONBase64 b).
Proof.
  unfold writeJSONBase64. eapply WJ_bind; [apply WJ_ctx|].
  refine (WJ_bind _ (j_nxt c) _ [QUOTE] (ascii (b64encode b) ++ [QUOTE]) _ _
            (WJ_write _ _) _).
  apply (WJ_bind _ (j_nxt c)); apply WJ_write.
Qed.

Lemma WJ_obj c : WJ c (CPair true true :: j_nxt c) (sep c ++ [LBRACE])
  writeJSONObjectStart.
Proof.
  unfold writeJSONObjectStart. eapply WJ_bind; [apply WJ_ctx|].
  eapply WJ_eq; [eapply WJ_bind; [apply WJ_write|apply WJ_push]|reflexivity].
Qed.

Lemma WJ_arr c : WJ c (CList true :: j_nxt c) (sep c ++ [LBRACKET])
  writeJSONArrayStart.
Proof.
  unfold writeJSONArrayStart. eapply WJ_bind; [apply WJ_ctx|].
  eapply WJ_eq; [eapply WJ_bind; [apply WJ_write|apply WJ_push]|reflexivity].
Qed.

Lemma WJ_obj_end c t : WJ (t :: c) c [RBRACE] writeJSONObjectEnd.
Proof. eapply WJ_bind0; [apply WJ_pop|apply WJ_write]. Qed.

Lemma WJ_arr_end c t : WJ (t :: c) c [RBRACKET] writeJSONArrayEnd.
Proof. eapply WJ_bind0; [apply WJ_pop|apply WJ_write]. Qed.

(** The name of a type. *)
Definition tname (t : Z) : list Z :=
  match find (fun p => fst p =? t) CTYPES with Some (_, n) => n | None => [] end.

Lemma ctype_code {S} t (s : S) : ctype (code t) s = (Ok (tname (code t)), s).
Proof. destruct t; reflexivity. Qed.

Lemma jtype_code {S} t (s : S) : jtype (tname (code t)) s = (Ok (code t), s).
Proof. destruct t; reflexivity. Qed.

Lemma tname_plain t : forallb plain_char (tname (code t)) = true.
Proof. destruct t; reflexivity. Qed.

Lemma tname_len t : (length (tname (code t)) <= 3)%nat.
Proof. destruct t; cbn; lia. Qed.

Lemma WJ_tname c t : WJ c (j_nxt c) (sep c ++ jstr (tname (code t)))
  (n <- ctype (code t) ;; writeJSONString n).
Proof.
  intros x i o d Hx. unfold bind. rewrite ctype_code.
  eapply WJ_string; [|exact Hx]. apply etext_plain, tname_plain.
Qed.

(** * Reading *)

Lemma RJ_bind {A B} (Q1 Q2 : list byte -> Prop) c1 c2 c3 b1 b2
    (m : MJ A) (k : A -> MJ B) v w :
  RJ Q1 c1 c2 b1 m v ->
  (forall tail, Q2 tail -> Q1 (b2 ++ tail)) ->
  RJ Q2 c2 c3 b2 (k v) w ->
  RJ Q2 c1 c3 (b1 ++ b2) (bind m k) w.
Proof.
  intros H1 HQ H2 tail Ht x i o d Hx. rewrite <- app_assoc in Hx.
  destruct (H1 (b2 ++ tail) (HQ tail Ht) x i o d Hx) as (x1 & i1 & E1 & R1).
  destruct (H2 tail Ht x1 i1 o d R1) as (x2 & i2 & E2 & R2).
  exists x2, i2. unfold bind. rewrite E1, E2. auto.
Qed.

Lemma RJ_bindA {A B} Q c1 c2 c3 b1 b2 (m : MJ A) (k : A -> MJ B) v w :
  RJ anyT c1 c2 b1 m v -> RJ Q c2 c3 b2 (k v) w ->
  RJ Q c1 c3 (b1 ++ b2) (bind m k) w.
Proof. intros H1 H2. eapply RJ_bind; [exact H1| |exact H2]. intros; exact I. Qed.

Lemma RJ_bind0 {A B} Q c1 c2 c3 b2 (m : MJ A) (k : A -> MJ B) v w :
  RJ anyT c1 c2 [] m v -> RJ Q c2 c3 b2 (k v) w -> RJ Q c1 c3 b2 (bind m k) w.
Proof. intros H1 H2. exact (RJ_bindA Q c1 c2 c3 [] b2 m k v w H1 H2). Qed.

Lemma RJ_weak {A} (Q Q' : list byte -> Prop) c c' bs (m : MJ A) v :
  RJ Q c c' bs m v -> (forall t, Q' t -> Q t) -> RJ Q' c c' bs m v.
Proof. intros H HQ tail Ht. apply H. auto. Qed.

Lemma RJ_any {A} Q c c' bs (m : MJ A) v : RJ anyT c c' bs m v -> RJ Q c c' bs m v.
Proof. intros H. eapply RJ_weak; [exact H|]. intros; exact I. Qed.

Lemma RJ_eq {A} Q c c' b b' (m : MJ A) v : RJ Q c c' b m v -> b = b' ->
  RJ Q c c' b' m v.
Proof. intros H <-. exact H. Qed.

Lemma RJ_ret {A} Q c (v : A) : RJ Q c c [] (ret v) v.
Proof. intros tail _ x i o d Hx. exists x, i. auto. Qed.

(** A state in which [b] is next. *)
Lemma rd_next c x i b r o d : j_rrep c x i (b :: r) ->
  exists x' i', rd (mkst x i o d) = (Ok [b], mkst x' i' o d) /\ j_rrep c x' i' r
                /\ ahead x' = None.
Proof.
  destruct x as [s [h|]]; intros [Hs Ha]; cbn [stack ahead] in *; subst s.
  - destruct Ha as (b' & -> & E). injection E as <- ->.
    exists (mkj c None), i. split; [reflexivity|]. repeat split.
  - subst i. exists (mkj c None), r. split; [reflexivity|]. repeat split.
Qed.

Lemma peek_next c x i b r o d : j_rrep c x i (b :: r) ->
  exists x' i', peek (mkst x i o d) = (Ok [b], mkst x' i' o d)
                /\ j_rrep c x' i' (b :: r).
Proof.
  destruct x as [s [h|]]; intros [Hs Ha]; cbn [stack ahead] in *; subst s.
  - destruct Ha as (b' & -> & E). injection E as <- ->.
    exists (mkj c (Some [b])), i. split; [reflexivity|]. split; [reflexivity|].
    exists b. auto.
  - subst i. exists (mkj c (Some [b])), r. split; [reflexivity|].
    split; [reflexivity|]. exists b. auto.
Qed.

Lemma is_byte_same b : is_byte [b] b = true.
Proof. unfold is_byte. apply Z.eqb_refl. Qed.

Lemma RJ_syntax c b : RJ anyT c c [b] (readJSONSyntaxChar b) tt.
Proof.
  intros tail _ x i o d Hx. destruct (rd_next c x i b tail o d Hx) as (x' & i' & E & R & _).
  exists x', i'. unfold readJSONSyntaxChar, bind. rewrite E, is_byte_same. auto.
Qed.

Lemma RJ_get c Q : RJ Q c c [] get_stack c.
Proof.
  intros tail _ x i o d Hx. exists x, i. destruct Hx as [Hs Ha].
  unfold get_stack, get_px, bind, ret. cbn [px]. rewrite Hs. split; [reflexivity|].
  split; assumption.
Qed.

Lemma RJ_set c c' Q : RJ Q c c' [] (set_stack c') tt.
Proof.
  intros tail _ x i o d [Hs Ha]. exists (mkj c' (ahead x)), i. split; [reflexivity|].
  split; [reflexivity|exact Ha].
Qed.

Lemma RJ_ctx c : RJ anyT c (j_nxt c) (sep c) ctx_read tt.
Proof.
  assert (ST : forall t0 r t, RJ anyT (t0 :: r) (t :: r) [] (set_top t) tt).
  { intros t0 r t. unfold set_top. eapply RJ_bind0; [apply RJ_get|]. apply RJ_set. }
  unfold ctx_read, doIO. eapply RJ_bind0; [apply RJ_get|].
  destruct c as [|[|[]|[] []] c]; unfold top, sep, j_nxt, adv; cbn [top negb].
  - apply RJ_ret.
  - apply RJ_ret.
  - apply ST.
  - apply RJ_syntax.
  - apply ST.
  - apply ST.
  - eapply RJ_eq; [eapply RJ_bindA; [apply RJ_syntax|apply ST]|reflexivity].
  - eapply RJ_eq; [eapply RJ_bindA; [apply RJ_syntax|apply ST]|reflexivity].
Qed.

Lemma RJ_push c t : RJ anyT c (t :: c) [] (pushContext t) tt.
Proof. unfold pushContext. eapply RJ_bind0; [apply RJ_get|]. apply RJ_set. Qed.

Lemma RJ_pop c t : RJ anyT (t :: c) c [] popContext tt.
Proof. unfold popContext. eapply RJ_bind0; [apply RJ_get|]. apply RJ_set. Qed.

Lemma RJ_obj c : RJ anyT c (CPair true true :: j_nxt c) (sep c ++ [LBRACE])
  readJSONObjectStart tt.
Proof.
  unfold readJSONObjectStart. eapply RJ_bindA; [apply RJ_ctx|].
  eapply RJ_eq; [eapply RJ_bindA; [apply RJ_syntax|apply RJ_push]|reflexivity].
Qed.

Lemma RJ_arr c : RJ anyT c (CList true :: j_nxt c) (sep c ++ [LBRACKET])
  readJSONArrayStart tt.
Proof.
  unfold readJSONArrayStart. eapply RJ_bindA; [apply RJ_ctx|].
  eapply RJ_eq; [eapply RJ_bindA; [apply RJ_syntax|apply RJ_push]|reflexivity].
Qed.

Lemma RJ_obj_end c t : RJ anyT (t :: c) c [RBRACE] readJSONObjectEnd tt.
Proof.
  unfold readJSONObjectEnd.
  eapply RJ_eq; [eapply RJ_bindA; [apply RJ_syntax|apply RJ_pop]|reflexivity].
Qed.

Lemma RJ_arr_end c t : RJ anyT (t :: c) c [RBRACKET] readJSONArrayEnd tt.
Proof.
  unfold readJSONArrayEnd.
  eapply RJ_eq; [eapply RJ_bindA; [apply RJ_syntax|apply RJ_pop]|reflexivity].
Qed.

(** * Strings and numbers *)

Lemma is_byte_ne b q : b2z b <> b2z q -> is_byte [b] q = false.
Proof. intros H. unfold is_byte. lia. Qed.

Section Limit.
Variable limit : option Z.

Lemma run_loop_ok h : forall k acc len c x i o d b r,
  forallb (fun y => 128 <=? b2z y) h = true -> b2z b < 128 ->
  j_rrep c x i (h ++ b :: r) -> (length h < k)%nat -> 0 <= len ->
  lim_ok limit (len + Z.of_nat (length h)) ->
  exists x' i',
    run_loop limit k acc len (mkst x i o d)
    = (Ok (acc ++ h, len + Z.of_nat (length h)), mkst x' i' o d)
    /\ j_rrep c x' i' (b :: r).
Proof.
  induction h as [|y h IH]; intros k acc len c x i o d b r Hh Hb Hx Hk Hlen Hl.
  - cbn [app length] in *. destruct k as [|k]; [lia|]. cbn [run_loop].
    destruct (peek_next c x i b r o d Hx) as (x1 & i1 & E1 & R1).
    unfold bind at 1. rewrite E1. unfold bind at 1. cbn [ord]. unfold ret.
    destruct (128 <=? b2z b) eqn:G; [lia|]. rewrite app_nil_r.
    exists x1, i1. rewrite Z.add_0_r. auto.
  - cbn [app length forallb] in *. apply andb_prop in Hh as [Hy Hh].
    destruct k as [|k]; [lia|]. cbn [run_loop].
    destruct (peek_next c x i y (h ++ b :: r) o d Hx) as (x1 & i1 & E1 & R1).
    unfold bind at 1. rewrite E1. unfold bind at 1. cbn [ord]. unfold ret at 1.
    rewrite Hy.
    destruct (rd_next c x1 i1 y (h ++ b :: r) o d R1) as (x2 & i2 & E2 & R2 & _).
    unfold bind at 1. rewrite E2. unfold bind at 1. rewrite check_length_ok.
    + destruct (IH k (acc ++ [y]) (len + 1) c x2 i2 o d b r Hh Hb R2) as
        (x3 & i3 & E3 & R3); try lia.
      * unfold lim_ok in *. destruct limit; [lia|exact I].
      * exists x3, i3. rewrite E3, <- app_assoc. split; [|exact R3].
        replace (len + 1 + Z.of_nat (length h)) with (len + Z.of_nat (S (length h)))
          by lia. reflexivity.
    + lia.
    + unfold lim_ok in Hl. destruct limit; [lia|exact I].
Qed.

Lemma utf8_cons c s b : utf8_encode (c :: s) = Some b ->
  exists bc bs, utf8_char c = Some bc /\ utf8_encode s = Some bs /\ b = bc ++ bs.
Proof.
  cbn [utf8_encode]. destruct (utf8_char c) as [bc|]; [|discriminate].
  destruct (utf8_encode s) as [bs|]; [|discriminate]. intros H.
  apply some_inj in H. exists bc, bs. auto.
Qed.

Lemma utf8_char_pos c b : utf8_char c = Some b -> 0 <= c.
Proof.
  unfold utf8_char. destruct (scalar c) eqn:E; [|discriminate].
  unfold scalar in E. lia.
Qed.

(** A character that is not escaped. *)
Lemma utf8_char_first c b : utf8_char c = Some b -> escape_char c = None ->
  exists b0 bs, b = b0 :: bs /\ b2z b0 <> b2z QUOTE /\ b2z b0 <> 92
    /\ forallb (fun y => 128 <=? b2z y) bs = true.
Proof.
  intros H He. pose proof (utf8_char_pos c b H). apply escape_char_none in He as [H1 H2].
  change (b2z QUOTE) with 34.
  destruct (Z_lt_le_dec c 128) as [Hc|Hc].
  - rewrite utf8_char_ascii in H by lia. apply some_inj in H. subst b.
    exists (z2b c), []. split; [reflexivity|].
    rewrite b2z_z2b, Z.mod_small by lia. repeat split; try reflexivity; lia.
  - destruct (utf8_char_high c b Hc H) as [Hn Hh]. destruct b as [|b0 bs]; [congruence|].
    exists b0, bs. cbn [forallb] in Hh. apply andb_prop in Hh as [Hh1 Hh2].
    repeat split; try assumption; lia.
Qed.

Lemma etext_nil : etext [] = [].
Proof. reflexivity. Qed.

Lemma string_loop_ok n : forall s b k acc len c x i o d tail,
  (length s <= n)%nat -> utf8_encode s = Some b ->
  j_rrep c x i (etext s ++ QUOTE :: tail) -> (length (etext s) < k)%nat -> 0 <= len ->
  lim_ok limit (len + Z.of_nat (length (etext s))) ->
  exists x' i',
    string_loop limit k None acc len (mkst x i o d) = (Ok (acc ++ s), mkst x' i' o d)
    /\ j_rrep c x' i' tail.
Proof.
  induction n as [|n IH]; intros s b k acc len c x i o d tail Hn Hb Hx Hk Hlen Hl;
    (destruct k as [|k]; [lia|]).
  - destruct s as [|? ?]; [|cbn [length] in Hn; lia]. rewrite etext_nil in *.
    cbn [app] in Hx. destruct (rd_next c x i QUOTE tail o d Hx) as (x1 & i1 & E1 & R1 & _).
    cbn [string_loop]. unfold bind at 1. rewrite E1, is_byte_same.
    rewrite app_nil_r. exists x1, i1. auto.
  - destruct s as [|ch s].
    { rewrite etext_nil in *.
      cbn [app] in Hx. destruct (rd_next c x i QUOTE tail o d Hx) as (x1 & i1 & E1 & R1 & _).
      cbn [string_loop]. unfold bind at 1. rewrite E1, is_byte_same.
      rewrite app_nil_r. exists x1, i1. auto. }
    cbn [length] in Hn. pose proof Hb as Hb0.
    apply utf8_cons in Hb as (bc & bs & Ec & Es & ->).
    cbn [string_loop].
    destruct (escape_char ch) as [e|] eqn:Ee.
    + pose proof (escape_char_spec ch e Ee) as (H1 & H2 & H3 & H4).
      assert (Et : etext (ch :: s) = z2b 92 :: z2b e :: etext s).
      { change (ch :: s) with ([ch] ++ s).
        rewrite (etext_app [ch] s bc bs);
          [|cbn [utf8_encode]; rewrite Ec, app_nil_r; reflexivity|exact Es].
        unfold etext at 1, escape. cbn [flat_map]. rewrite Ee, app_nil_r.
        cbn [utf8_encode]. rewrite !utf8_char_ascii by lia. reflexivity. }
      rewrite Et in *. cbn [app length] in *.
      destruct (rd_next _ _ _ _ _ o d Hx) as (x1 & i1 & E1 & R1 & _).
      unfold bind at 1. rewrite E1. rewrite is_byte_ne by (cbv; discriminate).
      unfold bind at 1. cbn [ord]. unfold ret at 1.
      change (b2z (z2b 92) =? 92) with true. cbv iota.
      destruct (rd_next _ _ _ _ _ o d R1) as (x2 & i2 & E2 & R2 & _).
      unfold bind at 1. rewrite E2. unfold bind at 1. cbn [ord]. unfold ret at 1.
      rewrite b2z_z2b, Z.mod_small by lia.
      destruct (e =? 117) eqn:G; [lia|]. rewrite H4.
      unfold bind at 1. rewrite check_length_ok.
      * destruct (IH s bs k (acc ++ [ch]) (len + 2) c x2 i2 o d tail) as
          (x3 & i3 & E3 & R3); try assumption; try lia.
        -- unfold lim_ok in *. destruct limit; [lia|exact I].
        -- exists x3, i3. rewrite E3, <- app_assoc. auto.
      * lia.
      * unfold lim_ok in Hl. destruct limit; [lia|exact I].
    + destruct (span_high_spec s) as (Hs & Hh & Ht).
      destruct (span_high s) as [h t]. cbn [fst snd] in *. subst s.
      destruct (utf8_encode_app_inv h t bs Es) as (bh & bt & Eh & Ebt & ->).
      destruct (utf8_char_first ch bc Ec Ee) as (b0 & br & -> & N1 & N2 & Hbr).
      assert (Ech : utf8_encode (ch :: h) = Some (b0 :: br ++ bh)).
      { cbn [utf8_encode]. rewrite Ec, Eh. reflexivity. }
      assert (Ech1 : etext (ch :: h) = b0 :: br ++ bh).
      { unfold etext. replace (escape (ch :: h)) with (ch :: h); [rewrite Ech; reflexivity|].
        change (ch :: h) with ([ch] ++ h). rewrite escape_app, (escape_high h Hh).
        unfold escape. cbn [flat_map]. rewrite Ee. reflexivity. }
      assert (Et : etext (ch :: h ++ t) = (b0 :: br ++ bh) ++ etext t).
      { change (ch :: h ++ t) with ((ch :: h) ++ t).
        rewrite (etext_app (ch :: h) t _ _ Ech Ebt), Ech1. reflexivity. }
      rewrite Et in *. rewrite !app_length in *. cbn [length] in *.
      rewrite !app_length in *. cbn [app] in Hx.
      destruct (rd_next _ _ _ _ _ o d Hx) as (x1 & i1 & E1 & R1 & A1).
      unfold bind at 1. rewrite E1. rewrite is_byte_ne by exact N1.
      unfold bind at 1. cbn [ord]. unfold ret at 1.
      destruct (b2z b0 =? 92) eqn:G; [lia|].
      unfold bind at 1. cbn [inp].
      destruct (etext_head t QUOTE Ht (ex_intro _ bt Ebt) ltac:(reflexivity))
        as (q0 & q1 & Eq & Hq).
      assert (R1' : j_rrep c x1 i1 ((br ++ bh) ++ q0 :: (q1 ++ tail))).
      { rewrite <- app_assoc in R1. change (q0 :: q1 ++ tail) with ((q0 :: q1) ++ tail).
        rewrite <- Eq, <- app_assoc. rewrite <- app_assoc in R1 |- *. exact R1. }
      assert (Hi1 : (length (br ++ bh) < S (S (length i1)))%nat).
      { destruct R1' as [_ Ra]. rewrite A1 in Ra. rewrite <- Ra.
        rewrite (app_length (br ++ bh)). lia. }
      destruct (run_loop_ok (br ++ bh) (S (S (length i1))) [b0] (len + 1) c x1 i1 o d q0
        (q1 ++ tail)) as (x2 & i2 & E2 & R2); try assumption; try lia.
      { rewrite forallb_app, Hbr, (utf8_high h bh Hh Eh). reflexivity. }
      { rewrite app_length. unfold lim_ok in *. destruct limit; [lia|exact I]. }
      unfold bind at 1. rewrite E2. cbn iota beta. cbn [app].
      unfold bind at 1. unfold decode_utf8.
      rewrite (utf8_decode_encode _ _ Ech). unfold ret at 1.
      rewrite app_length in *.
      unfold bind at 1. rewrite check_length_ok.
      * assert (Hln : (length t <= n)%nat) by lia.
        assert (R2' : j_rrep c x2 i2 (etext t ++ QUOTE :: tail)).
        { change (q0 :: q1 ++ tail) with ((q0 :: q1) ++ tail) in R2.
          rewrite <- Eq, <- app_assoc in R2. exact R2. }
        destruct (IH t bt k (acc ++ ch :: h) (len + 1 + Z.of_nat (length br + length bh))
          c x2 i2 o d tail) as
          (x3 & i3 & E3 & R3); try assumption; try lia.
        -- unfold lim_ok in *. destruct limit; [lia|exact I].
        -- exists x3, i3. rewrite E3, <- app_assoc. auto.
      * lia.
      * unfold lim_ok in Hl. destruct limit; [lia|exact I].
Qed.

Lemma RJ_string sk c s b : utf8_encode s = Some b ->
  lim_ok limit (Z.of_nat (length (etext s))) ->
  RJ anyT (if sk : bool then c else c) (if sk then c else j_nxt c)
     ((if sk then [] else sep c) ++ jstr s) (readJSONString limit sk) s.
Proof.
  intros Hb Hl. unfold readJSONString.
  eapply RJ_bindA with (c2 := if sk then c else j_nxt c).
  - destruct sk; [apply RJ_ret|apply RJ_ctx].
  - generalize (if sk then c else j_nxt c). clear c. intros c. unfold jstr.
    apply (RJ_eq _ _ _ ([QUOTE] ++ (etext s ++ [QUOTE]))); [|reflexivity].
    intros tail _ x i o d Hx. cbn [app] in Hx.
    destruct (rd_next _ _ _ _ _ o d Hx) as (x1 & i1 & E1 & R1 & A1).
    unfold readJSONSyntaxChar, bind at 1. unfold bind at 1. rewrite E1, is_byte_same.
    unfold ret at 1. unfold bind at 1. cbn [inp].
    rewrite <- app_assoc in R1. cbn [app] in R1.
    destruct (string_loop_ok (length s) s b (S (S (length i1))) [] 0 c x1 i1 o d tail)
      as (x2 & i2 & E2 & R2); try assumption; try lia.
    + destruct R1 as [_ Ra]. rewrite A1 in Ra. rewrite <- Ra.
      rewrite app_length. lia.
    + exists x2, i2. auto.
Qed.

(** What may follow a number. *)
Definition j_okT (l : list byte) : Prop :=
  exists b r, l = b :: r /\ numeric b = false.

Lemma numeric_loop_ok h : forall k acc len c x i o d b r,
  forallb numeric h = true -> numeric b = false ->
  j_rrep c x i (h ++ b :: r) -> (length h < k)%nat -> 0 <= len ->
  lim_ok limit (len + Z.of_nat (length h)) ->
  exists x' i',
    numeric_loop limit k acc len (mkst x i o d) = (Ok (acc ++ h), mkst x' i' o d)
    /\ j_rrep c x' i' (b :: r).
Proof.
  induction h as [|y h IH]; intros k acc len c x i o d b r Hh Hb Hx Hk Hlen Hl.
  - cbn [app length] in *. destruct k as [|k]; [lia|]. cbn [numeric_loop].
    destruct (peek_next c x i b r o d Hx) as (x1 & i1 & E1 & R1).
    unfold bind at 1. rewrite E1. rewrite Hb, app_nil_r.
    exists x1, i1. auto.
  - cbn [app length forallb] in *. apply andb_prop in Hh as [Hy Hh].
    destruct k as [|k]; [lia|]. cbn [numeric_loop].
    destruct (peek_next c x i y (h ++ b :: r) o d Hx) as (x1 & i1 & E1 & R1).
    unfold bind at 1. rewrite E1. rewrite Hy.
    destruct (rd_next c x1 i1 y (h ++ b :: r) o d R1) as (x2 & i2 & E2 & R2 & _).
    unfold bind at 1. rewrite E2. unfold bind at 1. rewrite check_length_ok.
    + destruct (IH k (acc ++ [y]) (len + 1) c x2 i2 o d b r Hh Hb R2) as
        (x3 & i3 & E3 & R3); try lia.
      * unfold lim_ok in *. destruct limit; [lia|exact I].
      * exists x3, i3. rewrite E3, <- app_assoc. auto.
    + lia.
    + unfold lim_ok in Hl. destruct limit; [lia|exact I].
Qed.

Lemma num_char_range c : num_char c = true -> 0 <= c < 128.
Proof. unfold num_char, is_digit. lia. Qed.

Lemma ascii_num t : forallb num_char t = true ->
  forallb numeric (ascii t) = true /\ map b2z (ascii t) = t.
Proof.
  induction t as [|c t IH]; intros H; [split; reflexivity|].
  cbn [forallb ascii map] in *. apply andb_prop in H as [H1 H2].
  pose proof (num_char_range c H1). fold (ascii t). destruct (IH H2) as [-> ->].
  unfold numeric. rewrite b2z_z2b, Z.mod_small by lia. cbv zeta.
  unfold num_char in H1. rewrite H1. split; reflexivity.
Qed.

Lemma RJ_numchars c t : forallb num_char t = true ->
  lim_ok limit (Z.of_nat (length t)) ->
  RJ j_okT c c (ascii t) (readJSONNumericChars limit) t.
Proof.
  intros Ht Hl tail (b & r & -> & Hb) x i o d Hx.
  destruct (ascii_num t Ht) as [Hn Hm].
  unfold readJSONNumericChars, bind at 1. cbn [inp].
  assert (Hlen : length (ascii t) = length t) by apply map_length.
  destruct (numeric_loop_ok (ascii t) (S (S (length i))) [] 0 c x i o d b r)
    as (x1 & i1 & E1 & R1); try assumption; try lia.
  - destruct Hx as [_ Ha].
    assert (length (ascii t ++ b :: r) <= S (length i))%nat.
    { destruct (ahead x) as [h|]; [destruct Ha as (b' & _ & ->)|rewrite Ha];
        cbn [length]; lia. }
    rewrite app_length in H. cbn [length] in H. lia.
  - rewrite Hlen. exact Hl.
  - exists x1, i1. unfold bind. rewrite E1. cbn [app]. unfold ret. rewrite Hm. auto.
Qed.

Lemma RJ_escape {B} Q c bs (k : bool -> MJ B) c' v :
  RJ Q c c' bs (k (esc c)) v -> RJ Q c c' bs (bind escapeNum k) v.
Proof.
  intros H tail Ht x i o d Hx. destruct (H tail Ht x i o d Hx) as (x1 & i1 & E & R).
  exists x1, i1. split; [|exact R]. rewrite <- E. destruct Hx as [Hs _].
  unfold escapeNum, get_stack, get_px, bind, ret. cbn [px]. rewrite Hs. reflexivity.
Qed.

Lemma quote_okT r : j_okT (QUOTE :: r).
Proof. exists QUOTE, r. split; reflexivity. Qed.

Lemma RJ_integer c z : lim_ok limit (Z.of_nat (length (int_text z))) ->
  RJ (if esc (j_nxt c) then anyT else j_okT) c (j_nxt c)
     (sep c ++ num c (int_text z)) (readJSONInteger limit) z.
Proof.
  intros Hl. unfold readJSONInteger. eapply RJ_bindA; [apply RJ_ctx|].
  unfold readJSONQuotes, num. pose proof (int_text_num z) as Hn.
  set (t := int_text z) in *.
  assert (Hp : py_int t = Some z) by apply py_int_text. clearbody t.
  generalize (j_nxt c). clear c. intros c. destruct (esc c) eqn:E.
  - apply (RJ_eq _ _ _ ([QUOTE] ++ (ascii t ++ ([QUOTE] ++ [])))); [|reflexivity].
    eapply RJ_bindA; [apply RJ_escape; rewrite E; apply RJ_syntax|].
    eapply RJ_bind; [apply RJ_numchars; assumption|intros; apply quote_okT|].
    eapply RJ_bindA; [apply RJ_escape; rewrite E; apply RJ_syntax|].
    rewrite Hp. apply RJ_ret.
  - apply (RJ_eq _ _ _ (ascii t ++ [])); [|apply app_nil_r].
    eapply RJ_bind0; [apply RJ_escape; rewrite E; apply RJ_ret|].
    eapply RJ_bind; [apply RJ_numchars; assumption|intros tail H; exact H|].
    eapply RJ_bind0; [apply RJ_escape; rewrite E; apply RJ_ret|].
    rewrite Hp. apply RJ_ret.
Qed.

Lemma num_plain t : forallb num_char t = true -> forallb plain_char t = true.
Proof.
  intros H. rewrite forallb_forall in *. intros c Hc. specialize (H c Hc).
  unfold num_char, is_digit in H. unfold plain_char. lia.
Qed.

Lemma RJ_peek {B} Q c b bs (k : list byte -> MJ B) c' v :
  RJ Q c c' (b :: bs) (k [b]) v -> RJ Q c c' (b :: bs) (bind peek k) v.
Proof.
  intros H tail Ht x i o d Hx. cbn [app] in Hx.
  destruct (peek_next c x i b (bs ++ tail) o d Hx) as (x1 & i1 & E1 & R1).
  unfold bind. rewrite E1. apply (H tail Ht). exact R1.
Qed.

Lemma RJ_double c v : 0 <= v < 2 ^ 64 -> finite v = true ->
  lim_ok limit (Z.of_nat (length (dbl_text v))) ->
  RJ (if esc (j_nxt c) then anyT else j_okT) c (j_nxt c)
     (sep c ++ num c (dbl_text v)) (readJSONDouble limit) v.
Proof.
  intros Hv Hf Hl. unfold readJSONDouble. eapply RJ_bindA; [apply RJ_ctx|].
  unfold num. destruct (dbl_text_chars v Hv Hf) as (Hn & Hne & _).
  pose proof (py_float_text v Hv Hf) as Hp.
  set (t := dbl_text v) in *. clearbody t.
  generalize (j_nxt c). clear c. intros c. destruct (esc c) eqn:E.
  - apply RJ_peek. rewrite is_byte_same.
    destruct (etext_plain t (num_plain t Hn)) as [Ea Et].
    apply (RJ_eq _ _ _ (jstr t ++ [])); [|rewrite app_nil_r; unfold jstr; rewrite Et; reflexivity].
    eapply RJ_bindA.
    + refine (RJ_string true c t (ascii t) Ea _). rewrite Et. unfold ascii.
      rewrite map_length. exact Hl.
    + unfold to_float. rewrite Hp. apply RJ_ret.
  - destruct t as [|c0 t]; [congruence|]. cbn [ascii map]. apply RJ_peek.
    assert (Hc0 : num_char c0 = true).
    { cbn [forallb] in Hn. apply andb_prop in Hn as [H _]. exact H. }
    rewrite is_byte_ne.
    2:{ pose proof (num_char_range c0 Hc0). rewrite b2z_z2b, Z.mod_small by lia.
        change (b2z QUOTE) with 34. unfold num_char, is_digit in Hc0. lia. }
    apply RJ_escape. rewrite E. eapply RJ_bind0; [apply RJ_ret|].
    apply (RJ_eq _ _ _ (ascii (c0 :: t) ++ [])); [|apply app_nil_r].
    eapply RJ_bind; [apply RJ_numchars; assumption|intros tail H; exact H|].
    unfold to_float. rewrite Hp. apply RJ_ret.
Qed.

Lemma RJ_plain c t : forallb plain_char t = true ->
  lim_ok limit (Z.of_nat (length t)) ->
  RJ anyT c (j_nxt c) (sep c ++ QUOTE :: ascii t ++ [QUOTE]) (readJSONString limit false) t.
Proof.
  intros Ht Hl. destruct (etext_plain t Ht) as [Ea Et].
  pose proof (RJ_string false c t (ascii t) Ea) as H. cbn iota in H.
  unfold jstr in H. rewrite Et in H. apply H. unfold ascii. rewrite map_length. exact Hl.
Qed.

Lemma RJ_tname c t : lim_ok limit 40 ->
  RJ anyT c (j_nxt c) (sep c ++ jstr (tname (code t)))
     (n <- readJSONString limit false ;; jtype n) (code t).
Proof.
  intros Hl. destruct (etext_plain _ (tname_plain t)) as [Ea Et]. unfold jstr. rewrite Et.
  apply (RJ_eq _ _ _ ((sep c ++ QUOTE :: ascii (tname (code t)) ++ [QUOTE]) ++ []));
    [|apply app_nil_r].
  eapply RJ_bindA.
  - apply RJ_plain; [apply tname_plain|]. pose proof (tname_len t).
    unfold lim_ok in *. destruct limit; [lia|exact I].
  - intros tail _ x i o d Hx. exists x, i. rewrite jtype_code. auto.
Qed.

End Limit.

(** * The instance *)

(** [SL] bounds strings and binaries in bytes before escaping, which at most
    doubles their size; 40 characters are enough for every other token. *)
Definition j_limits (limit : option Z) (SL CL : Z) : Prop :=
  CL <= 9223372036854775807 /\ lim_ok limit (2 * SL) /\ lim_ok limit 40.

Definition je_base (c : list ctx) (t : ty) (v : value) : list byte :=
  sep c ++
  match t, v with
  | TBool, VBool b => num c (int_text (if b then 1 else 0))
  | TByte, VInt z | TI16, VInt z | TI32, VInt z | TI64, VInt z => num c (int_text z)
  | TDouble, VDouble d => num c (dbl_text d)
  | TString, VStr s => jstr s
  | TBinary, VBin b => QUOTE :: ascii (b64encode b) ++ [QUOTE]
  | TUuid, VUuid b => jstr (uuid_text b)
  | _, _ => []
  end.

Definition je_sbeg (c : list ctx) : list byte := sep c ++ [LBRACE].

Definition je_fbeg (f : list ctx) (id t : Z) (_ : option bool) : list byte :=
  (sep f ++ num f (int_text id))
  ++ (sep (j_nxt f) ++ [LBRACE])
  ++ (sep (CPair true true :: j_nxt (j_nxt f)) ++ jstr (tname t)).

Definition je_lbeg (c : list ctx) (t n : Z) : list byte :=
  (sep c ++ [LBRACKET])
  ++ (sep (CList true :: j_nxt c) ++ jstr (tname t))
  ++ (sep (CList false :: j_nxt c) ++ num (CList false :: j_nxt c) (int_text n)).

Definition je_mbeg (c : list ctx) (k t n : Z) : list byte :=
  (sep c ++ [LBRACKET])
  ++ (sep (CList true :: j_nxt c) ++ jstr (tname k))
  ++ (sep (CList false :: j_nxt c) ++ jstr (tname t))
  ++ (sep (CList false :: j_nxt c) ++ num (CList false :: j_nxt c) (int_text n))
  ++ (sep (CList false :: j_nxt c) ++ [LBRACE]).

(** Positions of keys in an object. *)
Definition keypos (t : ctx) : Prop := t = CPair true true \/ t = CPair false false.

Definition j_fpos (c f : list ctx) : Prop := exists t, keypos t /\ f = t :: j_nxt c.
Definition j_lpos (c e : list ctx) : Prop := e = CList false :: j_nxt c.
Definition j_mpos (c e : list ctx) : Prop :=
  exists t, keypos t /\ e = t :: CList false :: j_nxt c.
Definition j_epos (c : list ctx) : Prop :=
  match c with CList false :: _ | CPair _ _ :: _ => True | _ => False end.

Definition j_inF (f : list ctx) (_ : Z) (_ : option bool) : list ctx :=
  CPair false true :: j_nxt (j_nxt f).

Lemma sep_okT c r : j_epos c -> j_okT (sep (j_nxt c) ++ r).
Proof.
  destruct c as [|[|[]|[] []] c]; cbn [j_epos]; try contradiction; intros _;
    eexists; eexists; split; reflexivity.
Qed.

Lemma RJ_map {A B} Q c c' bs (m : MJ A) (f : A -> B) v :
  RJ Q c c' bs m v -> RJ Q c c' bs (bind m (fun x => ret (f x))) (f v).
Proof.
  intros H tail Ht x i o d Hx. destruct (H tail Ht x i o d Hx) as (x1 & i1 & E & R).
  exists x1, i1. unfold bind. rewrite E. auto.
Qed.

Lemma RJ_tail {A} (b : bool) c c' bs (m : MJ A) v :
  RJ (if b then anyT else j_okT) c c' bs m v -> RJ j_okT c c' bs m v.
Proof. destruct b; [apply RJ_any|auto]. Qed.

Lemma WJ_int c bits z : - 2 ^ (bits - 1) <= z < 2 ^ (bits - 1) ->
  WJ c (j_nxt c) (sep c ++ num c (int_text z)) (j_writeInt bits z).
Proof.
  intros H x i o d Hx. unfold j_writeInt, bind at 1, checkIntegerLimits.
  replace ((z <? - 2 ^ (bits - 1)) || (2 ^ (bits - 1) - 1 <? z)) with false by lia.
  unfold ret. apply WJ_number. exact Hx.
Qed.

Section JsonLaws.
Variable limit : option Z.
Variables SL CL : Z.
Hypothesis Hlim : j_limits limit SL CL.

Lemma lim_le n m : n <= m -> lim_ok limit m -> lim_ok limit n.
Proof. unfold lim_ok. destruct limit; [lia|auto]. Qed.

Lemma lim40 n : n <= 40 -> lim_ok limit n.
Proof. intros H. apply (lim_le n 40 H), Hlim. Qed.

Lemma jw_base c t v : base_ty t = true -> base_okd finite SL t v = true ->
  WJ c (j_nxt c) (je_base c t v) (write_base (json limit) t v).
Proof.
  intros Hb Hok. unfold je_base.
  destruct t; try discriminate Hb; destruct v; try discriminate Hok;
    cbn [write_base base_okd] in *; cbn [json writeBool writeByte
      writeI16 writeI32 writeI64 writeDouble writeString writeBinary writeUuid].
  - apply WJ_number.
  - apply between_spec in Hok. apply WJ_int. change (2 ^ (8 - 1)) with 128. lia.
  - apply between_spec in Hok. apply WJ_int. change (2 ^ (16 - 1)) with 32768. lia.
  - apply between_spec in Hok. apply WJ_int. change (2 ^ (32 - 1)) with 2147483648. lia.
  - apply between_spec in Hok. apply WJ_int.
    change (2 ^ (64 - 1)) with 9223372036854775808. lia.
  - apply WJ_number.
  - destruct (utf8_encode s) as [b|] eqn:E; [|discriminate].
    eapply WJ_string, E.
  - apply WJ_base64.
  - eapply WJ_string. apply etext_plain, uuid_text_plain.
Qed.

Lemma b64_limit b : len_le b SL = true -> lim_ok limit (Z.of_nat (length (b64encode b))).
Proof.
  intros H. unfold len_le in H. rewrite b64encode_length. destruct Hlim as (_ & H1 & H2).
  unfold lim_ok in *. destruct limit; [|exact I].
  Z.to_euclidean_division_equations; lia.
Qed.

Lemma jr_base c t v : base_ty t = true -> base_okd finite SL t v = true ->
  RJ j_okT c (j_nxt c) (je_base c t v) (read_base (json limit) t) v.
Proof.
  intros Hb Hok. unfold je_base.
  assert (Hi : forall z, -9223372036854775808 <= z <= 9223372036854775807 ->
    RJ j_okT c (j_nxt c) (sep c ++ num c (int_text z)) (readJSONInteger limit) z).
  { intros z Hz. eapply RJ_tail, RJ_integer, lim40.
    pose proof (int_text_len z). lia. }
  destruct t; try discriminate Hb; destruct v; try discriminate Hok;
    cbn [read_base base_okd] in *; cbn [json readBool readByte
      readI16 readI32 readI64 readDouble readString readBinary readUuid].
  - apply (RJ_map _ _ _ _ _ VBool b). unfold j_readBool.
    replace b with (negb ((if b then 1 else 0) =? 0)) at 2 by (destruct b; reflexivity).
    apply (RJ_map _ _ _ _ _ (fun z => negb (z =? 0))). apply Hi. destruct b; lia.
  - apply (RJ_map _ _ _ _ _ VInt z). apply between_spec in Hok. apply Hi. lia.
  - apply (RJ_map _ _ _ _ _ VInt z). apply between_spec in Hok. apply Hi. lia.
  - apply (RJ_map _ _ _ _ _ VInt z). apply between_spec in Hok. apply Hi. lia.
  - apply (RJ_map _ _ _ _ _ VInt z). apply between_spec in Hok. apply Hi. lia.
  - apply (RJ_map _ _ _ _ _ VDouble bits).
    destruct (finite bits) eqn:Hf; [|discriminate]. apply between_spec in Hok.
    assert (Hr : 0 <= bits < 2 ^ 64) by (change (2 ^ 64) with 18446744073709551616; lia).
    eapply RJ_tail, RJ_double; auto. apply lim40.
    pose proof (dbl_text_chars bits Hr Hf) as (_ & _ & H). lia.
  - apply (RJ_map _ _ _ _ _ VStr s). apply RJ_any.
    destruct (utf8_encode s) as [b|] eqn:E; [|discriminate].
    refine (RJ_string limit false c s b E _).
    destruct (escape_encodes s b E) as (e & Ee & He). unfold etext. rewrite Ee.
    unfold len_le in Hok. apply (lim_le _ (2 * SL)); [lia|apply Hlim].
  - apply (RJ_map _ _ _ _ _ VBin b). apply RJ_any. unfold readJSONBase64.
    apply (RJ_eq _ _ _ ((sep c ++ QUOTE :: ascii (b64encode b) ++ [QUOTE]) ++ []));
      [|apply app_nil_r].
    eapply RJ_bindA; [apply RJ_plain; [apply b64encode_plain|apply b64_limit, Hok]|].
    cbv zeta. rewrite b64encode_length.
    replace (4 * ((Z.of_nat (length b) + 2) / 3) mod 4 =? 0) with true.
    2:{ rewrite Z.mul_comm, Z.mod_mul by lia. reflexivity. }
    rewrite b64decode_encode. apply RJ_ret.
  - apply (RJ_map _ _ _ _ _ VUuid b). apply RJ_any. unfold j_readUuid.
    destruct (etext_plain _ (uuid_text_plain b)) as [Ea Et].
    assert (Hl : length b = 16%nat) by lia.
    apply (RJ_eq _ _ _ ((sep c ++ QUOTE :: ascii (uuid_text b) ++ [QUOTE]) ++ []));
      [|rewrite app_nil_r; unfold jstr; rewrite Et; reflexivity].
    eapply RJ_bindA; [apply RJ_plain; [apply uuid_text_plain|]|].
    + apply lim40. rewrite uuid_text_length by exact Hl. lia.
    + rewrite (py_uuid_text b Hl). apply RJ_ret.
Qed.

Lemma jw_fbeg f id t ob : WJ f (j_inF f id ob) (je_fbeg f id (code t) ob)
  (j_writeFieldBegin (code t) id).
Proof.
  unfold j_writeFieldBegin, je_fbeg.
  eapply WJ_bind; [apply WJ_number|]. eapply WJ_bind; [apply WJ_obj|].
  apply WJ_tname.
Qed.

Lemma jw_lbeg c t n : WJ c (CList false :: j_nxt c) (je_lbeg c (code t) n)
  (j_writeListBegin (code t) n).
Proof.
  unfold j_writeListBegin, je_lbeg. eapply WJ_bind; [apply WJ_arr|].
  intros x i o d Hx. unfold bind at 1. rewrite ctype_code.
  revert x i o d Hx. fold (WJ (CList true :: j_nxt c)).
  refine (WJ_bind _ (CList false :: j_nxt c) _ _ _ _ _ _ (WJ_number _ _)).
  eapply (WJ_string (CList true :: j_nxt c)). apply etext_plain, tname_plain.
Qed.

Lemma jw_mbeg c k t n : WJ c (CPair true true :: CList false :: j_nxt c)
  (je_mbeg c (code k) (code t) n) (j_writeMapBegin (code k) (code t) n).
Proof.
  unfold j_writeMapBegin, je_mbeg. eapply WJ_bind; [apply WJ_arr|].
  intros x i o d Hx. unfold bind at 1. rewrite ctype_code. revert x i o d Hx.
  refine (WJ_bind _ (CList false :: j_nxt c) _ _ _ _ _ _ _).
  { eapply (WJ_string (CList true :: j_nxt c)). apply etext_plain, tname_plain. }
  intros x i o d Hx. unfold bind at 1. rewrite ctype_code. revert x i o d Hx.
  refine (WJ_bind _ (CList false :: j_nxt c) _ _ _ _ _ _ _).
  { eapply (WJ_string (CList false :: j_nxt c)). apply etext_plain, tname_plain. }
  eapply WJ_bind; [apply WJ_number|]. apply WJ_obj.
Qed.

Lemma j_nums z : -9223372036854775808 <= z <= 9223372036854775807 ->
  lim_ok limit (Z.of_nat (length (int_text z))).
Proof. intros H. apply lim40. pose proof (int_text_len z). lia. Qed.

Lemma jr_fbeg f id t ob c : j_fpos c f -> between (-32768) 32767 id = true ->
  RJ anyT f (j_inF f id ob) (je_fbeg f id (code t) ob) (j_readFieldBegin limit)
     (code t, id).
Proof.
  intros (tp & Hk & ->) Hid. apply between_spec in Hid.
  unfold j_readFieldBegin, je_fbeg.
  set (f := tp :: j_nxt c).
  assert (He : exists b r, sep f ++ num f (int_text id) = b :: r
                           /\ b2z b <> b2z RBRACE /\ esc (j_nxt f) = true).
  { subst f. destruct Hk as [-> | ->]; eexists; eexists;
      (split; [reflexivity|]); (split; [cbv; discriminate|reflexivity]). }
  destruct He as (b & r & He & Hb & Hesc).
  assert (H : RJ anyT f (j_inF f id ob)
    ((sep f ++ num f (int_text id)) ++
     (sep (j_nxt f) ++ [LBRACE]) ++
     sep (CPair true true :: j_nxt (j_nxt f)) ++ jstr (tname (code t)))
    (id <- readJSONInteger limit ;;
     readJSONObjectStart ;;;
     n <- readJSONString limit false ;;
     t <- jtype n ;;
     ret (t, id)) (code t, id)).
  { eapply RJ_bindA.
    - pose proof (RJ_integer limit f id (j_nums id ltac:(lia))) as R.
      rewrite Hesc in R. exact R.
    - eapply RJ_bindA; [apply RJ_obj|].
      pose proof (RJ_map _ _ _ _ _ (fun t => (t, id)) _
        (RJ_tname limit (CPair true true :: j_nxt (j_nxt f)) t (lim40 40 ltac:(lia)))) as R.
      intros tail Ht x i o d Hx. destruct (R tail Ht x i o d Hx) as (x1 & i1 & E & R1).
      exists x1, i1. split; [|exact R1]. rewrite <- E. unfold bind.
      destruct (readJSONString _ _ _) as [[?|?|] ?]; reflexivity. }
  rewrite He in *. cbn [app] in *. apply RJ_peek. rewrite is_byte_ne by exact Hb. exact H.
Qed.

Lemma jr_lbeg c t n : 0 <= n <= CL ->
  RJ j_okT c (CList false :: j_nxt c) (je_lbeg c (code t) n) (j_readListBegin limit)
     (code t, n).
Proof.
  intros Hn. destruct Hlim as (HC & _ & _). unfold j_readListBegin, je_lbeg.
  eapply RJ_bindA; [apply RJ_arr|].
  assert (R : RJ j_okT (CList true :: j_nxt c) (CList false :: j_nxt c)
    ((sep (CList true :: j_nxt c) ++ jstr (tname (code t))) ++
     sep (CList false :: j_nxt c) ++ num (CList false :: j_nxt c) (int_text n))
    (t <- (n <- readJSONString limit false ;; jtype n) ;;
     size <- readJSONInteger limit ;; ret (t, size)) (code t, n)).
  { eapply RJ_bindA.
    - apply (RJ_tname limit (CList true :: j_nxt c) t (lim40 40 ltac:(lia))).
    - apply (RJ_map _ _ _ _ _ (fun size => (code t, size)) n).
      eapply RJ_tail, RJ_integer, j_nums. lia. }
  intros tail Ht x i o d Hx. destruct (R tail Ht x i o d Hx) as (x1 & i1 & E & R1).
  exists x1, i1. split; [|exact R1]. rewrite <- E. unfold bind.
  destruct (readJSONString _ _ _) as [[?|?|] ?]; reflexivity.
Qed.

Lemma jr_mbeg c k t n : 0 <= n <= CL ->
  RJ anyT c (CPair true true :: CList false :: j_nxt c)
     (je_mbeg c (code k) (code t) n) (j_readMapBegin limit) (code k, code t, n).
Proof.
  intros Hn. destruct Hlim as (HC & _ & _). unfold j_readMapBegin, je_mbeg.
  eapply RJ_bindA; [apply RJ_arr|].
  set (c' := CList false :: j_nxt c).
  assert (R : RJ anyT (CList true :: j_nxt c) (CPair true true :: c')
    ((sep (CList true :: j_nxt c) ++ jstr (tname (code k))) ++
     (sep c' ++ jstr (tname (code t))) ++
     (sep c' ++ num c' (int_text n)) ++ (sep c' ++ [LBRACE]))
    (k <- (n <- readJSONString limit false ;; jtype n) ;;
     t <- (n <- readJSONString limit false ;; jtype n) ;;
     size <- readJSONInteger limit ;;
     readJSONObjectStart ;;;
     ret (k, t, size)) (code k, code t, n)).
  { eapply RJ_bindA.
    { apply (RJ_tname limit (CList true :: j_nxt c) k (lim40 40 ltac:(lia))). }
    eapply RJ_bindA.
    { apply (RJ_tname limit c' t (lim40 40 ltac:(lia))). }
    eapply RJ_bind.
    { apply (RJ_integer limit c' n). apply j_nums. lia. }
    { intros tail _. cbn. eexists; eexists; split; reflexivity. }
    apply (RJ_map _ _ _ _ _ (fun _ : unit => (code k, code t, n)) tt).
    apply (RJ_obj c'). }
  intros tail Ht x i o d Hx. destruct (R tail Ht x i o d Hx) as (x1 & i1 & E & R1).
  exists x1, i1. split; [|exact R1]. rewrite <- E. unfold bind.
  destruct (readJSONString _ _ _) as [[?|?|] ?]; try reflexivity.
  destruct (jtype _ _) as [[?|?|] ?]; try reflexivity.
  destruct (readJSONString _ _ _) as [[?|?|] ?]; reflexivity.
Qed.

Lemma keypos_2 t c : keypos t -> exists t', keypos t' /\ j_nxt (j_nxt (t :: c)) = t' :: c.
Proof.
  intros [-> | ->]; exists (CPair false false); (split; [right; reflexivity|reflexivity]).
Qed.

Definition json_laws : laws (json limit) SL CL.
Proof.
  unshelve refine (mklaws jst (json limit) SL CL (list ctx)
    j_wrep j_rrep j_okT (fun _ => true) finite id16
    j_nxt (fun c => CPair true true :: j_nxt c) j_inF (fun f _ => j_nxt (j_nxt f))
    (fun f => f) (fun c => CList false :: j_nxt c)
    (fun c => CPair true true :: CList false :: j_nxt c)
    (fun _ => True) (fun _ => True) j_epos (fun _ _ => True)
    j_fpos j_lpos j_mpos
    je_base je_sbeg je_fbeg [RBRACE] [] [RBRACE]
    je_lbeg [RBRACKET] je_mbeg [RBRACE; RBRACKET]
    (fun k t n => (k, t, n))
    _ _ _ _ _ _ _ _ _ _ _ _ _ _ _
    _ _ _ _ _ _ _ _ _ _ _ _
    _ _ _ _ _ _ _ _ _ _ _ _ _
    _ _
    _ _ _ _ _ _ _
    _ _ _ _ _); try (intros; exact I); try reflexivity.
  - intros c _. exists (CPair true true). split; [left|]; reflexivity.
  - intros c f id (t & Ht & ->). destruct (keypos_2 t (j_nxt c) Ht) as (t' & H1 & H2).
    exists t'. auto.
  - intros c e ->. reflexivity.
  - intros c e ->. exact I.
  - intros c _. exists (CList false :: j_nxt c). split; [exact I|reflexivity].
  - intros c _. exists (CPair true true). split; [left|]; reflexivity.
  - intros c e (t & Ht & ->). destruct (keypos_2 t (CList false :: j_nxt c) Ht) as (t' & H1 & H2).
    exists t'. auto.
  - intros c e (t & [-> | ->] & ->); exact I.
  - intros c e (t & [-> | ->] & ->); exact I.
  - intros c t v _ _. apply jw_base.
  - intros c _. apply WJ_obj.
  - intros c f id t _ _ _. apply jw_fbeg.
  - intros c f id b _ _. eapply WJ_bind; [apply (jw_fbeg f id TBool)|].
    apply WJ_number.
  - intros c f id ob _. apply WJ_obj_end.
  - intros c f _ (t & _ & ->). apply (WJ_bind0 _ (t :: j_nxt c)).
    + intros x i o d Hx. exists x. rewrite app_nil_r. auto.
    + apply WJ_obj_end.
  - intros c t n _ _. apply jw_lbeg.
  - intros c e _ ->. apply WJ_arr_end.
  - intros c t n _ _. apply jw_lbeg.
  - intros c e _ ->. apply WJ_arr_end.
  - intros c k t n _ _. apply jw_mbeg.
  - intros c e _ (t & _ & ->).
    apply (WJ_bind _ (CList false :: j_nxt c) _ [RBRACE] [RBRACKET]).
    + apply WJ_obj_end.
    + apply WJ_arr_end.
  - intros c t v _. apply jr_base.
  - intros c b _ Hok _. exists (b64encode b). apply RJ_any, RJ_plain.
    + apply b64encode_plain.
    + apply b64_limit, Hok.
  - intros c _. apply RJ_obj.
  - intros c f id t ob Hf Hid _. eapply jr_fbeg; eassumption.
  - intros c f id ob _. apply RJ_obj_end.
  - intros c f _ tail. exists 0. intros tl -> x i o d Hx. cbn [app] in Hx |- *.
    destruct (peek_next _ _ _ _ _ o d Hx) as (x1 & i1 & E & R).
    exists x1, i1. split; [|exact R]. cbn [json readFieldBegin].
    unfold j_readFieldBegin, bind at 1. rewrite E, is_byte_same. reflexivity.
  - intros c f _ (t & _ & ->). apply RJ_obj_end.
  - intros c t n _. apply jr_lbeg.
  - intros c e _ ->. apply RJ_arr_end.
  - intros c t n _. apply jr_lbeg.
  - intros c e _ ->. apply RJ_arr_end.
  - intros c k t n _. apply jr_mbeg.
  - intros c e _ (t & _ & ->). cbn [json readMapEnd]. unfold j_readMapEnd.
    apply (RJ_eq _ _ _ ([RBRACE] ++ [RBRACKET])); [|reflexivity].
    eapply RJ_bindA; [apply RJ_obj_end|apply RJ_arr_end].
  - intros tail. exists RBRACE, tail. split; reflexivity.
  - intros tail. exists RBRACKET, tail. split; reflexivity.
  - intros tail. exists RBRACE, (RBRACKET :: tail). split; reflexivity.
  - intros c t v tail Hc. unfold je_base. rewrite <- app_assoc. apply sep_okT, Hc.
  - intros c tail Hc. unfold je_sbeg. rewrite <- app_assoc. apply sep_okT, Hc.
  - intros c t n tail Hc. unfold je_lbeg. rewrite <- !app_assoc. apply sep_okT, Hc.
  - intros c k t n tail Hc. unfold je_mbeg. rewrite <- !app_assoc. apply sep_okT, Hc.
  - intros c t v _ Hb Hok. unfold je_base. rewrite app_length.
    assert (Hn : forall z, (1 <= length (num c (int_text z)))%nat).
    { intros z. unfold num. pose proof (int_text_nonempty z).
      destruct (esc (j_nxt c)); [cbn [length]; lia|]. unfold ascii. rewrite map_length.
      destruct (int_text z); [congruence|cbn [length]; lia]. }
    destruct t; try discriminate Hb; destruct v; try discriminate Hok;
      try (specialize (Hn z)); try (specialize (Hn (if b then 1 else 0))); try lia;
      try (cbn [length]; lia).
    + cbn [base_okd] in Hok. destruct (finite bits) eqn:Hf; [|discriminate].
      apply between_spec in Hok.
      destruct (dbl_text_chars bits) as (_ & H & _);
        [change (2 ^ 64) with 18446744073709551616; lia|exact Hf|].
      unfold num. destruct (esc (j_nxt c)); [cbn [length]; lia|].
      unfold ascii. rewrite map_length.
      destruct (dbl_text bits); [congruence|cbn [length]; lia].
    + unfold jstr. cbn [length]. lia.
    + unfold jstr. cbn [length]. lia.
  - intros. unfold je_fbeg. rewrite !app_length. cbn [length]. lia.
  - intros. unfold je_lbeg. rewrite !app_length. cbn [length]. lia.
  - intros. unfold je_mbeg. rewrite !app_length. cbn [length]. lia.
Defined.

End JsonLaws.
