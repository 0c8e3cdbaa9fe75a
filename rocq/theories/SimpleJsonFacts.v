(** What TSimpleJSONProtocol writes. *)
From Coq Require Import ZArith List Bool Lia.
From Coq Require Import Init.Byte.
From Coq Require Import ZifyBool ZifyNat ZifyN.
From Verif Require Import Base Bytes BytesFacts Utf8 Utf8Facts Proto Spec Laws RoundTrip
  StructFacts Compact CompactFacts BinaryLaws CompactLaws JsonText JsonTextFacts Json JsonLaws SpecJson
  JsonFacts JsonStr SpecJsonDoc SimpleJson JsonDocFacts.
Import ListNotations.
Open Scope Z_scope.

Notation WD := (WrD j_wrep).

(** A writer of one document, in a position that is not that of a key; of one
    string, in the position of a key. *)
Definition Vd (dep : nat) (j : json) (m : MJ unit) : Prop :=
  exists b, enc8 (json_print j) b
    /\ forall d c, esc (j_nxt c) = false -> 0 <= d -> d + Z.of_nat dep <= 64 ->
       WD d c (j_nxt c) (sep c ++ b) m.
Definition Kd (s : list Z) (m : MJ unit) : Prop :=
  exists b, enc8 (print_string s) b
    /\ forall d c, esc (j_nxt c) = true -> WD d c (j_nxt c) (sep c ++ b) m.

Lemma Vd_le a b j m : (a <= b)%nat -> Vd a j m -> Vd b j m.
Proof. intros H (x & E & W). exists x. split; [exact E|]. intros. apply W; auto. lia. Qed.

Lemma WD_eq d c c' b b' m : b = b' -> WD d c c' b m -> WD d c c' b' m.
Proof. intros <-. auto. Qed.

Lemma num_plain' l : json_number l -> forallb plain_char l = true.
Proof.
  intros (m & i & f & e & -> & Hm & [[_ Hi] _] & Hf & He). rewrite !forallb_app.
  assert (D : forall l, json_digits l -> forallb plain_char l = true).
  { intros l [_ H]. apply forallb_forall. intros c Hc. specialize (H c Hc).
    unfold plain_char. lia. }
  assert (Di : forallb plain_char i = true).
  { apply forallb_forall. intros c Hc. specialize (Hi c Hc). unfold plain_char. lia. }
  rewrite Di. destruct Hm as [-> | ->]; cbn [forallb plain_char].
  all: assert (Df : forallb plain_char f = true)
    by (destruct Hf as [->|(r & -> & Hr)]; [reflexivity|]; cbn [forallb]; rewrite D by exact Hr;
        reflexivity).
  all: assert (De : forallb plain_char e = true)
    by (destruct He as [->|(x & s & r & -> & Hx & Hs & Hr)]; [reflexivity|];
        cbn [forallb]; rewrite forallb_app, (D r Hr);
        destruct Hx as [-> | ->]; destruct Hs as [->|[-> | ->]]; reflexivity).
  all: rewrite Df, De; reflexivity.
Qed.

Lemma Vd_num dep t : json_number t -> Vd dep (JNum t) (writeJSONNumber t).
Proof.
  intros H. exists (ascii t). split; [apply enc8_plain, num_plain', H|].
  intros d c Hc _ _. apply Wr_D. pose proof (WJ_number c t) as W.
  unfold num in W. rewrite Hc in W. exact W.
Qed.

Lemma Kd_num t : json_number t -> Kd t (writeJSONNumber t).
Proof.
  intros H. exists (quoted (map z2b t)). split; [apply print_plain, num_plain', H|].
  intros d c Hc. apply Wr_D. pose proof (WJ_number c t) as W.
  unfold num in W. rewrite Hc in W. exact W.
Qed.

Lemma string_wr d c s b : utf8_encode s = Some b ->
  WD d c (j_nxt c) (sep c ++ sj_string s) (writeJSONString s).
Proof.
  intros H. apply Wr_D. rewrite <- (jstr_spec s b H). eapply WJ_string, H.
Qed.

Lemma Vd_str dep s b : utf8_encode s = Some b -> Vd dep (JStr s) (writeJSONString s).
Proof.
  intros H. exists (sj_string s). split; [eapply enc8_string, H|].
  intros. eapply string_wr, H.
Qed.

Lemma Kd_str s b : utf8_encode s = Some b -> Kd s (writeJSONString s).
Proof.
  intros H. exists (sj_string s). split; [eapply enc8_string, H|].
  intros. eapply string_wr, H.
Qed.

Lemma Vd_b64 dep b : Vd dep (JStr (b64encode b)) (writeJSONBase64 b).
Proof.
  exists (quoted (map z2b (b64encode b))). split; [apply print_plain, b64encode_plain|].
  intros d c _ _ _. apply Wr_D, WJ_base64.
Qed.

Lemma Kd_b64 b : Kd (b64encode b) (writeJSONBase64 b).
Proof.
  exists (quoted (map z2b (b64encode b))). split; [apply print_plain, b64encode_plain|].
  intros d c _. apply Wr_D, WJ_base64.
Qed.

(** A step that only checks. *)
Lemma WD_check d c c' b bits z m : in_bits bits z -> 1 <= bits ->
  WD d c c' b m -> WD d c c' b (checkIntegerLimits z bits ;;; m).
Proof.
  intros H Hb W x i o Hx. destruct (W x i o Hx) as (x' & E & R). exists x'.
  split; [|exact R]. unfold bind, checkIntegerLimits, in_bits in *.
  match goal with |- context [if ?c then _ else _] => destruct c eqn:G end;
    [exfalso; lia|exact E].
Qed.

Lemma Vd_check dep j bits z m : in_bits bits z -> 1 <= bits -> Vd dep j m ->
  Vd dep j (checkIntegerLimits z bits ;;; m).
Proof.
  intros H Hb (b & E & W). exists b. split; [exact E|]. intros. apply WD_check; auto.
Qed.
Lemma Kd_check s bits z m : in_bits bits z -> 1 <= bits -> Kd s m ->
  Kd s (checkIntegerLimits z bits ;;; m).
Proof.
  intros H Hb (b & E & W). exists b. split; [exact E|]. intros. apply WD_check; auto.
Qed.

(** * Elements, members *)

Lemma elems_wr {A} dep (f : A -> json) (w : A -> MJ unit) l :
  Forall (fun x => Vd dep (f x) (w x)) l ->
  exists bs, Forall2 enc8 (map json_print (map f l)) bs
    /\ forall d c, 0 <= d -> d + Z.of_nat dep <= 64 ->
       WD d (CList false :: c) (CList false :: c) (more bs) (mapM_ w l)
       /\ exists t, WD d (CList true :: c) (t :: c) (join bs) (mapM_ w l).
Proof.
  induction 1 as [|x l (b & E & W) _ (bs & Es & Ws)].
  - exists []. split; [constructor|]. intros d c _ _. split; [apply Wr_ret|].
    exists (CList true). apply Wr_ret.
  - exists (b :: bs). split; [constructor; assumption|]. intros d c H0 Hd.
    destruct (Ws d c H0 Hd) as [W2 _]. split.
    + change (more (b :: bs)) with ((x2c :: b) ++ more bs). cbn [mapM_].
      eapply Wr_bind; [|exact W2]. exact (W d (CList false :: c) eq_refl H0 Hd).
    + exists (CList false). rewrite join_cons. cbn [mapM_].
      eapply Wr_bind; [|exact W2]. exact (W d (CList true :: c) eq_refl H0 Hd).
Qed.

Lemma Vd_arr {A} dep (f : A -> json) (w : A -> MJ unit) l :
  Forall (fun x => Vd dep (f x) (w x)) l ->
  Vd dep (JArr (map f l)) (writeJSONArrayStart ;;; mapM_ w l ;;; writeJSONArrayEnd).
Proof.
  intros H. destruct (elems_wr dep f w l H) as (bs & Es & Ws).
  exists (array bs). split; [apply enc8_arr, Es|]. intros d c Hc H0 Hd.
  destruct (Ws d (j_nxt c) H0 Hd) as (_ & t & W).
  apply WD_eq with (b := (sep c ++ [LBRACKET]) ++ join bs ++ [RBRACKET]).
  { unfold array. rewrite <- app_assoc. reflexivity. }
  eapply Wr_bind; [apply Wr_D, WJ_arr|]. eapply Wr_bind; [exact W|].
  apply Wr_D, WJ_arr_end.
Qed.

Lemma Vd_obj dep (l : list (list Z * json)) (m : MJ unit) :
  (exists bs, Forall2 enc8 (map pmember l) bs
    /\ forall d c, 0 <= d -> d + Z.of_nat dep <= 64 ->
       exists t, WD d (CPair true true :: c) (t :: c) (join bs) m) ->
  Vd dep (JObj l) (writeJSONObjectStart ;;; m ;;; writeJSONObjectEnd).
Proof.
  intros (bs & Es & Ws).
  exists (object bs). split; [apply enc8_obj, Es|]. intros d c Hc H0 Hd.
  destruct (Ws d (j_nxt c) H0 Hd) as (t & W).
  apply WD_eq with (b := (sep c ++ [LBRACE]) ++ join bs ++ [RBRACE]).
  { unfold object. rewrite <- app_assoc. reflexivity. }
  eapply Wr_bind; [apply Wr_D, WJ_obj|]. eapply Wr_bind; [exact W|].
  apply Wr_D, WJ_obj_end.
Qed.

(** One member, first or not. *)
Lemma member_wr dep s j mk mx : Kd s mk -> Vd dep j mx ->
  exists b, enc8 (pmember (s, j)) b
    /\ forall d c, 0 <= d -> d + Z.of_nat dep <= 64 ->
       WD d (CPair false false :: c) (CPair false false :: c) (x2c :: b) (mk ;;; mx)
       /\ WD d (CPair true true :: c) (CPair false false :: c) b (mk ;;; mx).
Proof.
  intros (kb & Ek & Wk) (b & E & W). exists (kb ++ x3a :: b).
  split; [apply enc8_member; assumption|]. intros d c H0 Hd. split.
  - change (x2c :: kb ++ x3a :: b) with ((x2c :: kb) ++ x3a :: b).
    eapply Wr_bind; [exact (Wk d (CPair false false :: c) eq_refl)|].
    exact (W d (CPair false true :: c) eq_refl H0 Hd).
  - eapply Wr_bind; [exact (Wk d (CPair true true :: c) eq_refl)|].
    exact (W d (CPair false true :: c) eq_refl H0 Hd).
Qed.

Section SS.
Variable dtext : Z -> list Z.
Variable D : Z -> bool.
Hypothesis Hdbl : forall d, D d = true -> json_number (dtext d).
Variable names : nat -> nat -> list Z.
Hypothesis Hnames : forall n i, exists b, utf8_encode (names n i) = Some b.
Variable env : schema.
Variables SL CL : Z.
Notation ssw := (ss_write dtext names env).
Notation ssd := (ss_doc dtext names env).

Lemma in8b z : between (-128) 127 z = true -> in_bits 8 z.
Proof. intros H. apply between_spec in H. unfold in_bits. cbn. lia. Qed.

Ltac ints :=
  repeat match goal with
  | |- Vd _ _ (checkIntegerLimits _ _ ;;; _) =>
      apply Vd_check; [first [apply in8b|apply in16|apply in32|apply in64]; assumption|lia|]
  | |- Kd _ (checkIntegerLimits _ _ ;;; _) =>
      apply Kd_check; [first [apply in8b|apply in16|apply in32|apply in64]; assumption|lia|]
  | |- Vd _ (JNum (int_text _)) _ => apply Vd_num, int_number
  | |- Kd (int_text _) _ => apply Kd_num, int_number
  end.

Lemma ss_key t k : hashable t = true -> wfd D env SL CL t k = true ->
  Kd (key_text dtext k) (ssw t k).
Proof.
  intros Hh Hw. destruct t; try discriminate Hh; destruct k; try discriminate Hw;
    cbn [ss_write ss_base key_text wfd base_okd] in *; ints.
  - apply Kd_num, Hdbl. destruct (D _); [reflexivity|discriminate].
  - destruct (utf8_encode _) as [b|] eqn:E; [|discriminate]. eapply Kd_str, E.
  - apply Kd_b64.
  - eapply Kd_str. apply etext_plain, uuid_text_plain.
Qed.

Fixpoint ss_members (n i : nat) (fs : list (option value)) (ds : list fielddef)
  : list (list Z * json) :=
  match fs, ds with
  | f :: fs', d :: ds' =>
      match f with
      | Some x => [(names n i, ssd (f_ty d) x)]
      | None => []
      end ++ ss_members n (S i) fs' ds'
  | _, _ => []
  end.

Lemma ssd_struct n m fs ds : nth_error env m = Some ds ->
  ssd (TStruct n) (VStruct m fs) = JObj (ss_members m 0 fs ds).
Proof.
  intros H. cbn [ss_doc]. rewrite H. f_equal. clear H. generalize 0%nat as i.
  revert ds. induction fs as [|f fs IH]; intros [|d ds] i; try reflexivity.
  cbn [ss_members]. rewrite <- IH. reflexivity.
Qed.

Lemma ss_wr v : forall t, wfd D env SL CL t v = true -> Vd (sdepth v) (ssd t v) (ssw t v).
Proof.
  induction v using value_rect'; intros t Hwf.
  1-6: destruct t; try discriminate Hwf;
    cbn [ss_doc scalar_doc ss_write ss_base wfd base_okd] in *; ints.
  - apply Vd_num, Hdbl. destruct (D _); [reflexivity|discriminate].
  - destruct (utf8_encode _) as [b|] eqn:E; [|discriminate]. eapply Vd_str, E.
  - apply Vd_b64.
  - eapply Vd_str. apply etext_plain, uuid_text_plain.
  - destruct t; try discriminate Hwf. cbn [wfd] in Hwf. apply andb_prop in Hwf as [_ Hwf].
    cbn [ss_doc ss_write]. apply Vd_arr.
    pose proof (sdepth_list l _ (le_n _)) as Hs.
    rewrite forallb_forall in Hwf. rewrite Forall_forall in *. intros x Hx.
    eapply Vd_le; [apply Hs, Hx|]. auto.
  - destruct t; try discriminate Hwf. cbn [wfd] in Hwf. apply andb_prop in Hwf as [_ Hwf].
    cbn [ss_doc ss_write]. apply Vd_arr.
    pose proof (sdepth_set l _ (le_n _)) as Hs.
    rewrite forallb_forall in Hwf. rewrite Forall_forall in *. intros x Hx.
    eapply Vd_le; [apply Hs, Hx|]. auto.
  - destruct t; try discriminate Hwf. cbn [wfd] in Hwf. apply andb_prop in Hwf as [Hk Hwf].
    apply andb_prop in Hk as [Hk _]. apply andb_prop in Hk as [_ Hk].
    cbn [ss_doc ss_write]. apply Vd_obj.
    pose proof (sdepth_map l _ (le_n _)) as Hs. revert Hs.
    generalize (sdepth (VMap l)) as dep. intros dep Hs.
    assert (G : exists bs, Forall2 enc8 (map pmember (map (fun kv => match kv with
          | (k, x) => (key_text dtext k, ssd t2 x) end) l)) bs
      /\ forall d c, 0 <= d -> d + Z.of_nat dep <= 64 ->
         let m := mapM_ (fun kv => match kv with (k, x) => ssw t1 k ;;; ssw t2 x end) l in
         WD d (CPair false false :: c) (CPair false false :: c) (more bs) m
         /\ exists t, WD d (CPair true true :: c) (t :: c) (join bs) m).
    { induction H as [|[k x] l [_ Hx] _ IH].
      - exists []. split; [constructor|]. intros d c _ _. split; [apply Wr_ret|].
        exists (CPair true true). apply Wr_ret.
      - inversion Hs as [|? ? [_ Hdx] Hs']; subst. cbn [forallb fst snd] in *.
        apply andb_prop in Hwf as [Hw1 Hw2]. apply andb_prop in Hw1 as [Hwk Hwx].
        destruct (IH Hw2 Hs') as (bs & Es & Ws).
        destruct (member_wr dep _ _ _ _ (ss_key t1 k Hk Hwk) (Vd_le _ _ _ _ Hdx (Hx t2 Hwx)))
          as (b & E & W).
        exists (b :: bs). split; [constructor; assumption|]. intros d c H0 Hd.
        destruct (W d c H0 Hd) as [W1 W2]. destruct (Ws d c H0 Hd) as [W3 _].
        cbv zeta. cbn [mapM_]. split.
        + change (more (b :: bs)) with ((x2c :: b) ++ more bs).
          eapply Wr_bind; [exact W1|exact W3].
        + exists (CPair false false). rewrite join_cons.
          eapply Wr_bind; [exact W2|exact W3]. }
    destruct G as (bs & Es & Ws). exists bs. split; [exact Es|]. intros d c H0 Hd.
    apply (Ws d c H0 Hd).
  - destruct t; try discriminate Hwf. rewrite wf_struct in Hwf.
    apply andb_prop in Hwf as [Hn Hwf]. apply Nat.eqb_eq in Hn. subst n0.
    destruct (nth_error env n) as [ds|] eqn:E; [|discriminate].
    rewrite (ssd_struct n n fs ds E). cbn [ss_write]. rewrite E.
    rewrite (wf_fields_validate _ _ _ _ _ Hwf). clear E.
    assert (Hd1 : exists dep, sdepth (VStruct n fs) = S dep) by (eexists; reflexivity).
    destruct Hd1 as [dep Edep]. rewrite Edep.
    pose proof (sdepth_struct n fs dep ltac:(lia)) as Hs.
    assert (V : Vd dep (JObj (ss_members n 0 fs ds))
      (writeJSONObjectStart ;;; ss_fields names n ssw 0 fs ds ;;; writeJSONObjectEnd)).
    2:{ destruct V as (b & Eb & W). exists b. split; [exact Eb|].
        intros d c Hc H0 Hd. apply Wr_depth; [lia|]. apply W; auto; lia. }
    apply Vd_obj.
    assert (G : forall i, exists bs, Forall2 enc8 (map pmember (ss_members n i fs ds)) bs
      /\ forall d c, 0 <= d -> d + Z.of_nat dep <= 64 ->
         let m := ss_fields names n ssw i fs ds in
         WD d (CPair false false :: c) (CPair false false :: c) (more bs) m
         /\ exists t, WD d (CPair true true :: c) (t :: c) (join bs) m).
    { clear Edep. revert ds Hwf. induction H as [|f fs Hf _ IH]; intros [|d ds] Hwf i;
        cbn [ss_members ss_fields wf_fields] in *; try discriminate.
      - exists []. split; [constructor|]. intros d c _ _. split; [apply Wr_ret|].
        exists (CPair true true). apply Wr_ret.
      - inversion Hs as [|? ? Hdx Hs']; subst.
        apply andb_prop in Hwf as [Hw1 Hw2].
        destruct (IH Hs' ds Hw2 (S i)) as (bs & Es & Ws).
        destruct f as [x|]; [|exists bs; split; [exact Es|exact Ws]].
        cbn [app map]. destruct (Hnames n i) as [nb Enb].
        destruct (member_wr dep _ _ _ _ (Kd_str _ _ Enb) (Vd_le _ _ _ _ Hdx (Hf _ Hw1)))
          as (b & E & W).
        exists (b :: bs). split; [constructor; assumption|]. intros dd c H0 Hd.
        destruct (W dd c H0 Hd) as [W1 W2]. destruct (Ws dd c H0 Hd) as [W3 _].
        assert (Assoc : forall c1 c2 bb,
          WD dd c1 c2 bb ((writeJSONString (names n i) ;;; ssw (f_ty d) x) ;;;
                          ss_fields names n ssw (S i) fs ds) ->
          WD dd c1 c2 bb (writeJSONString (names n i) ;;; ssw (f_ty d) x ;;;
                          ss_fields names n ssw (S i) fs ds)).
        { intros c1 c2 bb HW y ii oo Hy. destruct (HW y ii oo Hy) as (y' & Ey & Ry).
          exists y'. split; [|exact Ry]. rewrite bind_assoc in Ey. exact Ey. }
        cbv zeta. split.
        + change (more (b :: bs)) with ((x2c :: b) ++ more bs).
          apply Assoc. eapply Wr_bind; [exact W1|exact W3].
        + exists (CPair false false). rewrite join_cons.
          apply Assoc. eapply Wr_bind; [exact W2|exact W3]. }
    destruct (G O) as (bs & Es & Ws). exists bs. split; [exact Es|]. intros d c H0 Hd.
    apply (Ws d c H0 Hd).
Qed.

(** The documents are well-formed. *)
Lemma ss_ok v : (forall n i, clean_string (names n i) = true) ->
  forall t, wfd D env SL CL t v = true -> clean v = true -> doc_ok (ssd t v).
Proof.
  intros Hcn. induction v using value_rect'; intros t Hwf Hc.
  1-6: destruct t; try discriminate Hwf; cbn [ss_doc scalar_doc doc_ok clean] in *;
    try apply int_number.
  - cbn [wfd base_okd] in Hwf. apply Hdbl. destruct (D _); [reflexivity|discriminate].
  - cbn [wfd base_okd] in Hwf. destruct (utf8_encode _) as [b|] eqn:E; [|discriminate].
    eapply string_ok; eassumption.
  - apply plain_ok, b64encode_plain.
  - apply plain_ok, uuid_text_plain.
  - destruct t; try discriminate Hwf. cbn [wfd] in Hwf. apply andb_prop in Hwf as [_ Hwf].
    cbn [ss_doc doc_ok fold_right clean] in *.
    apply fold_map_ok. rewrite forallb_forall in *. rewrite Forall_forall in *. auto.
  - destruct t; try discriminate Hwf. cbn [wfd] in Hwf. apply andb_prop in Hwf as [_ Hwf].
    cbn [ss_doc doc_ok fold_right clean] in *.
    apply fold_map_ok. rewrite forallb_forall in *. rewrite Forall_forall in *. auto.
  - destruct t; try discriminate Hwf. cbn [wfd] in Hwf. apply andb_prop in Hwf as [Hk Hwf].
    apply andb_prop in Hk as [Hk _]. apply andb_prop in Hk as [_ Hk].
    cbn [ss_doc doc_ok clean] in *.
    induction H as [|[k x] l [_ Hx] _ IH]; [exact I|].
    cbn [forallb fst snd] in *. apply andb_prop in Hwf as [Hw1 Hw2].
    apply andb_prop in Hw1 as [Hwk Hwx]. apply andb_prop in Hc as [Hc1 Hc2].
    apply andb_prop in Hc1 as [Hck Hcx]. cbn [map fold_right fst snd].
    split; [|split; auto]. clear IH Hx.
    destruct t1; try discriminate Hk; destruct k; try discriminate Hwk;
      cbn [key_text wfd base_okd clean] in *; try (apply plain_ok, int_plain).
    + apply plain_ok, num_plain', Hdbl. destruct (D _); [reflexivity|discriminate].
    + destruct (utf8_encode _) as [b|] eqn:E; [|discriminate].
      eapply string_ok; eassumption.
    + apply plain_ok, b64encode_plain.
    + apply plain_ok, uuid_text_plain.
  - destruct t; try discriminate Hwf. rewrite wf_struct in Hwf.
    apply andb_prop in Hwf as [Hn Hwf]. apply Nat.eqb_eq in Hn. subst n0.
    destruct (nth_error env n) as [ds|] eqn:E; [|discriminate].
    rewrite (ssd_struct n n fs ds E). cbn [doc_ok clean] in *. clear E.
    generalize 0%nat as i.
    revert ds Hwf. induction H as [|f fs Hf _ IH]; intros [|d ds] Hwf i;
      cbn [ss_members]; try exact I.
    cbn [wf_fields forallb] in *. apply andb_prop in Hwf as [Hw1 Hw2].
    apply andb_prop in Hc as [Hc1 Hc2].
    destruct f as [x|]; cbn [app fold_right fst snd doc_ok]; [|auto].
    destruct (Hnames n i) as [nb Enb].
    split; [eapply string_ok; [exact Enb|apply Hcn]|]. split; auto.
Qed.
End SS.
