(** Values nested deeper than the limit: writing and reading them raises
    DEPTH_LIMIT. *)
From Coq Require Import ZArith List Bool Lia ZifyBool ZifyNat.
From Coq Require Import Init.Byte.
From Verif Require Import Base Bytes Utf8 Proto Spec Laws RoundTrip StructFacts.
Import ListNotations.
Open Scope Z_scope.

Definition DL : exn := EProtocol TP_DEPTH_LIMIT.

Section Deep.
Context {X : Type} {P : proto X} {SL CL : Z} (L : laws P SL CL).
Variable env : schema.
Hypothesis Henv : schema_okd (idok L) env.

Notation WD := (WrD (wrep L)).
Notation RD := (RdD (rrep L)).

Lemma base_sdepth t v : base_ty t = true -> wfd (dok L) env SL CL t v = true -> sdepth v = O.
Proof. destruct t; intros H; try discriminate; destruct v; intros W; try discriminate; reflexivity. Qed.

(** * Writing *)

Definition WX (d : Z) (c : C L) (m : M X unit) : Prop :=
  forall x i o, wrep L c x -> exists s', m (mkst x i o d) = (Raise DL, s').

Lemma WX_bind d c1 c2 b m1 (m2 : M X unit) :
  WD d c1 c2 b m1 -> WX d c2 m2 -> WX d c1 (m1 ;;; m2).
Proof.
  intros H1 H2 x i o Hx. destruct (H1 x i o Hx) as (x1 & E1 & R1).
  destruct (H2 x1 i (o ++ b) R1) as (s' & E2). exists s'.
  unfold bind. rewrite E1. exact E2.
Qed.

Lemma WX_first d c m1 (m2 : M X unit) : WX d c m1 -> WX d c (m1 ;;; m2).
Proof.
  intros H x i o Hx. destruct (H x i o Hx) as (s' & E). exists s'.
  unfold bind. rewrite E. reflexivity.
Qed.

Lemma WX_in d c m : d + 1 <= 64 -> WX (d + 1) c m -> WX d c (with_depth m).
Proof.
  intros Hd H x i o Hx. destruct (H x i o Hx) as (s' & E).
  eexists. unfold with_depth, bind, increment_recursion_depth, try_finally.
  cbn [depth px inp out]. unfold DEFAULT_RECURSION_DEPTH.
  destruct (d + 1 >? 64) eqn:G; [lia|]. rewrite E. reflexivity.
Qed.

Lemma WX_out d c m : 64 <= d -> WX d c (with_depth m).
Proof.
  intros Hd x i o Hx. eexists.
  unfold with_depth, bind, increment_recursion_depth.
  cbn [depth px inp out]. unfold DEFAULT_RECURSION_DEPTH.
  destruct (d + 1 >? 64) eqn:G; [reflexivity|lia].
Qed.

Lemma write_elems_deep et d l : 0 <= d ->
  Forall (fun x => forall c, pos_ok L c et -> wfd (dok L) env SL CL et x = true ->
    64 < d + Z.of_nat (sdepth x) -> WX d c (write_value P env et x)) l ->
  forall c e, lpos L c e -> forallb (wfd (dok L) env SL CL et) l = true ->
  64 < d + Z.of_nat (fold_right (fun x a => Nat.max (sdepth x) a) O l) -> d <= 64 ->
  WX d e (mapM_ (write_value P env et) l).
Proof.
  intros Hd0. induction 1 as [|x l Hx Hl IH]; intros c e He Hwf Hdeep Hd.
  - cbn [fold_right] in Hdeep. lia.
  - cbn [forallb] in Hwf. apply andb_prop in Hwf as [Hw1 Hw2].
    assert (Hp : pos_ok L e et) by (apply pos_ok_epos; eapply p_Le; eauto).
    cbn [fold_right] in Hdeep. cbn [mapM_].
    destruct (Z_le_gt_dec (d + Z.of_nat (sdepth x)) 64) as [Hs|Hs].
    + eapply WX_bind; [apply (write_enc L env Henv x d et e Hd0 Hp Hw1 Hs)|].
      eapply IH; [apply (p_Ln _ _ _ L), He|exact Hw2|lia|exact Hd].
    + apply WX_first, Hx; auto. lia.
Qed.

Lemma write_items_deep kt vt d l : 0 <= d -> hashable kt = true ->
  Forall (fun kv => forall c, pos_ok L c vt -> wfd (dok L) env SL CL vt (snd kv) = true ->
    64 < d + Z.of_nat (sdepth (snd kv)) -> WX d c (write_value P env vt (snd kv))) l ->
  forall c e, mpos L c e ->
  forallb (fun kv => match kv with
                     | (k, x) => wfd (dok L) env SL CL kt k && wfd (dok L) env SL CL vt x
                     end) l = true ->
  64 < d + Z.of_nat (sdepth (VMap l)) -> d <= 64 ->
  WX d e (mapM_ (witem (P := P) env kt vt) l).
Proof.
  intros Hd0 Hk. induction 1 as [|[k x] l Hx Hl IH]; intros c e He Hwf Hdeep Hd.
  - cbn [sdepth fold_right] in Hdeep. lia.
  - cbn [forallb] in Hwf. apply andb_prop in Hwf as [Hw1 Hw2].
    apply andb_prop in Hw1 as [Hwk Hwx]. cbn [snd] in Hx.
    assert (Hpk : pos_ok L e kt) by (apply pos_ok_epos; eapply p_Mk; eauto).
    assert (Hp : pos_ok L (nxt L e) vt) by (apply pos_ok_epos; eapply p_Mv; eauto).
    pose proof (base_sdepth kt k (hashable_base _ Hk) Hwk) as Hks.
    assert (Hd64 : d + Z.of_nat (sdepth k) <= 64) by lia.
    pose proof (write_enc L env Henv k d kt e Hd0 Hpk Hwk Hd64) as W1.
    cbn [sdepth fold_right] in Hdeep. cbn [mapM_ witem].
    destruct (Z_le_gt_dec (d + Z.of_nat (sdepth x)) 64) as [Hs|Hs].
    + pose proof (write_enc L env Henv x d vt _ Hd0 Hp Hwx Hs) as W2.
      pose proof (Wr_bind _ _ _ _ _ _ _ _ _ W1 W2) as W12.
      eapply WX_bind; [exact W12|].
      eapply IH; [apply (p_Mn _ _ _ L), He|exact Hw2|cbn [sdepth]; lia|exact Hd].
    + apply WX_first. eapply WX_bind; [exact W1|]. apply Hx; auto. lia.
Qed.

Lemma write_fields_deep d ds : 0 <= d <= 64 -> forall fs,
  Forall (fun f => match f with
    | Some x => forall t c, pos_ok L c t -> wfd (dok L) env SL CL t x = true ->
        64 < d + Z.of_nat (sdepth x) -> WX d c (write_value P env t x)
    | None => True end) fs ->
  forall c f, spos L c -> fpos L c f ->
    (forall dd, In dd ds -> idok L (f_id dd) = true) ->
    wf_fields (D := dok L) env SL CL fs ds = true ->
    64 < d + Z.of_nat (fold_right (fun f a => match f with
        | Some x => Nat.max (sdepth x) a | None => a end) O fs) ->
    WX d f (write_fields P (write_value P env) fs ds).
Proof.
  intros Hd. induction ds as [|dd ds IH]; intros [|[x|] fs] Hfs c f Hc Hf Hid Hwf Hdeep;
    cbn [wf_fields] in Hwf; try discriminate.
  - cbn [fold_right] in Hdeep. lia.
  - apply andb_prop in Hwf as [Hw1 Hw2].
    inversion Hfs as [|? ? Hx Hfs2]; subst.
    assert (Hid1 := Hid dd (or_introl eq_refl)).
    assert (Hid2 : forall d0, In d0 ds -> idok L (f_id d0) = true)
      by (intros; apply Hid; right; assumption).
    cbn [write_fields fold_right] in *. fold (write_fields P (write_value P env)).
    destruct (fold_bool (f_ty dd) x) as [b|] eqn:Ob.
    + destruct (f_ty dd) eqn:Et; try discriminate Ob.
      destruct x; try discriminate Ob. cbn [sdepth] in Hdeep.
      assert (b0 = b) by (cbn in Ob; congruence). subst b0.
      cbn [write_value write_base code].
      intros s i o Hs.
      destruct (Wr_D _ _ _ _ _ d (w_fbool _ _ _ L c f (f_id dd) b Hf Hid1) s i o Hs)
        as (x1 & E1 & R1).
      match type of E1 with _ = (_, mkst _ _ ?o1 _) =>
        destruct (Wr_D _ _ _ _ _ d (w_fend _ _ _ L c f (f_id dd) (Some b) Hf) x1 i o1 R1)
          as (x2 & E2 & R2) end.
      match type of E2 with _ = (_, mkst _ _ ?o2 _) =>
        destruct (IH fs Hfs2 c _ Hc (p_fA _ _ _ L _ _ (f_id dd) Hf) Hid2 Hw2 ltac:(lia)
          x2 i o2 R2) as (s' & E3) end.
      exists s'. rewrite <- E3. revert E1 E2. unfold bind.
      destruct (writeFieldBegin P _ _ _) as [[[]|e0|] s1]; try discriminate.
      intros -> E2. rewrite E2. reflexivity.
    + assert (Ht : f_ty dd <> TBool).
      { intros Et. rewrite Et in *. destruct x; discriminate. }
      pose proof (pos_ok_field L c f (f_id dd) (f_ty dd) Hf Ht) as Hp.
      eapply WX_bind; [apply Wr_D; eapply w_fbeg; eauto|].
      destruct (Z_le_gt_dec (d + Z.of_nat (sdepth x)) 64) as [Hs|Hs].
      * eapply WX_bind; [apply (write_enc L env Henv x d _ _ ltac:(lia) Hp Hw1 Hs)|].
        eapply WX_bind; [apply Wr_D; eapply w_fend; eauto|].
        eapply IH; eauto; [apply (p_fA _ _ _ L); assumption|lia].
      * apply WX_first, Hx; auto. lia.
  - apply andb_prop in Hwf as [Hw1 Hw2].
    inversion Hfs as [|? ? Hx Hfs2]; subst.
    cbn [write_fields fold_right] in *. eapply IH; eauto.
    intros; apply Hid; right; assumption.
Qed.

Theorem write_deep v : forall d t c, 0 <= d <= 64 -> pos_ok L c t ->
  wfd (dok L) env SL CL t v = true -> 64 < d + Z.of_nat (sdepth v) ->
  WX d c (write_value P env t v).
Proof.
  induction v using value_rect'; intros d t c Hd0 Hpos Hwf Hd.
  1-6: cbn [sdepth] in Hd; lia.
  - destruct t; try discriminate Hwf.
    cbn [wfd] in Hwf. apply andb_prop in Hwf as [Hn Hl]. cbn [pos_ok] in Hpos.
    cbn [write_value]. unfold len_le in Hn.
    eapply WX_bind; [apply Wr_D, w_lbeg; [exact Hpos | lia]|].
    apply WX_first. eapply write_elems_deep; eauto; try lia.
    + eapply Forall_impl; [|exact H]. cbn beta. auto.
    + apply (p_L _ _ _ L); assumption.
  - destruct t; try discriminate Hwf.
    cbn [wfd] in Hwf. apply andb_prop in Hwf as [Hn Hl].
    apply andb_prop in Hn as [Hn _]. apply andb_prop in Hn as [Hn _].
    cbn [pos_ok] in Hpos. cbn [write_value]. unfold len_le in Hn.
    eapply WX_bind; [apply Wr_D, w_tbeg; [exact Hpos | lia]|].
    apply WX_first. eapply write_elems_deep; eauto; try lia.
    + eapply Forall_impl; [|exact H]. cbn beta. auto.
    + apply (p_L _ _ _ L); assumption.
  - destruct t as [| | | | | | | | | | |kt vt|]; try discriminate Hwf.
    cbn [wfd] in Hwf. apply andb_prop in Hwf as [Hn Hl].
    apply andb_prop in Hn as [Hn _]. apply andb_prop in Hn as [Hn Hk].
    cbn [pos_ok] in Hpos. cbn [write_value]. unfold len_le in Hn.
    eapply WX_bind; [apply Wr_D, w_mbeg; [exact Hpos | lia]|].
    apply WX_first. fold (witem (P := P) env kt vt).
    eapply write_items_deep; eauto; try lia.
    + eapply Forall_impl; [|exact H]. cbn beta. intros [k x] [Hk' Hx]. auto.
    + apply (p_M _ _ _ L); assumption.
  - destruct t as [| | | | | | | | | | | |m]; try discriminate Hwf.
    rewrite wf_struct in Hwf. apply andb_prop in Hwf as [Hn Hf].
    apply Nat.eqb_eq in Hn. subst m. cbn [pos_ok] in Hpos.
    destruct (nth_error env n) as [ds|] eqn:Eds; [|discriminate].
    cbn [write_value]. rewrite Eds.
    rewrite (wf_fields_validate _ _ _ _ _ Hf).
    destruct (Z_le_gt_dec (d + 1) 64) as [Hs|Hs]; [|apply WX_out; lia].
    apply WX_in; [exact Hs|].
    eapply WX_bind; [apply Wr_D, w_sbeg; exact Hpos|].
    apply WX_first. cbn [sdepth] in Hd.
    eapply write_fields_deep; eauto; try lia.
    + eapply Forall_impl; [|exact H]. cbn beta. intros [x|]; auto.
      intros Hx t c' Hc' Hw Hdx. apply Hx; auto. lia.
    + apply (p_fS _ _ _ L); assumption.
    + apply (Henv n ds Eds).
Qed.

(** * Reading *)

Hypothesis Hclosed : schema_closed env = true.
Variable F : nat.

Definition RX {A} (d : Z) (c : C L) (bs : list byte) (m : M X A) : Prop :=
  forall tail x i o, rrep L c x i (bs ++ tail) ->
    exists s', m (mkst x i o d) = (Raise DL, s').

Lemma RX_bind {A B} d (Q : list byte -> Prop) c1 c2 b1 b2 (m : M X A) (k : A -> M X B) v :
  RD d Q c1 c2 b1 m v -> (forall tail, Q (b2 ++ tail)) -> RX d c2 b2 (k v) ->
  RX d c1 (b1 ++ b2) (bind m k).
Proof.
  intros H1 HQ H2 tail x i o Hx. rewrite <- app_assoc in Hx.
  destruct (H1 _ (HQ tail) x i o Hx) as (x1 & i1 & E1 & R1).
  destruct (H2 tail x1 i1 o R1) as (s' & E2). exists s'.
  unfold bind. rewrite E1. exact E2.
Qed.

Lemma RX_first {A B} d c b1 b2 (m : M X A) (k : A -> M X B) :
  RX d c b1 m -> RX d c (b1 ++ b2) (bind m k).
Proof.
  intros H tail x i o Hx. rewrite <- app_assoc in Hx.
  destruct (H _ x i o Hx) as (s' & E). exists s'. unfold bind. rewrite E. reflexivity.
Qed.

Lemma RX_then {A B} d c b (m : M X A) (k : A -> M X B) :
  RX d c b m -> RX d c b (bind m k).
Proof.
  intros H tail x i o Hx.
  destruct (H _ x i o Hx) as (s' & E). exists s'. unfold bind. rewrite E. reflexivity.
Qed.

Lemma RX_in {A} d c b (m : M X A) : d + 1 <= 64 -> RX (d + 1) c b m ->
  RX d c b (with_depth m).
Proof.
  intros Hd H tail x i o Hx. destruct (H tail x i o Hx) as (s' & E).
  eexists. unfold with_depth, bind, increment_recursion_depth, try_finally.
  cbn [depth px inp out]. unfold DEFAULT_RECURSION_DEPTH.
  destruct (d + 1 >? 64) eqn:G; [lia|]. rewrite E. reflexivity.
Qed.

Lemma RX_out {A} d c b (m : M X A) : 64 <= d -> RX d c b (with_depth m).
Proof.
  intros Hd tail x i o Hx. eexists.
  unfold with_depth, bind, increment_recursion_depth.
  cbn [depth px inp out]. unfold DEFAULT_RECURSION_DEPTH.
  destruct (d + 1 >? 64) eqn:G; [reflexivity|lia].
Qed.

Lemma loop_elems_deep {A B} d et l (f : A -> M X A) (h : A -> value -> A)
    (k : A -> M X B) : d <= 64 ->
  forallb (wfd (dok L) env SL CL et) l = true ->
  (forall x, In x l -> forall e a, epos L e ->
     (length (enc L env e et x) <= F)%nat -> d + Z.of_nat (sdepth x) <= 64 ->
     RD d (okT L) e (nxt L e) (enc L env e et x) (f a) (h a x)) ->
  (forall x, In x l -> forall e a, epos L e ->
     (length (enc L env e et x) <= F)%nat -> 64 < d + Z.of_nat (sdepth x) ->
     RX d e (enc L env e et x) (f a)) ->
  64 < d + Z.of_nat (fold_right (fun x a => Nat.max (sdepth x) a) O l) ->
  forall fuel c e a, lpos L c e -> (length l <= fuel)%nat ->
    (length (enc_elems L env e et l) <= F)%nat ->
    RX d e (enc_elems L env e et l)
       (bind (repeatM fuel (Z.of_nat (length l)) f a) k).
Proof.
  intros Hd. induction l as [|x l IH]; intros Hwf Hf Hx Hdeep fuel c e a He Hfuel HF.
  - cbn [fold_right] in Hdeep. lia.
  - cbn [forallb] in Hwf. apply andb_prop in Hwf as [Hw1 Hw2].
    cbn [length] in Hfuel. destruct fuel as [|fuel]; [lia|].
    cbn [enc_elems fold_right] in *. rewrite app_length in HF.
    assert (Hepos : epos L e) by (eapply p_Le; eauto).
    cbn [length repeatM].
    destruct (Z.of_nat (S (length l)) <=? 0) eqn:G; [lia|].
    replace (Z.of_nat (S (length l)) - 1) with (Z.of_nat (length l)) by lia.
    intros tail s i o Hs. rewrite bind_assoc. revert tail s i o Hs.
    change (RX d e (enc L env e et x ++ enc_elems L env (nxt L e) et l)
      (bind (f a) (fun a0 => bind (repeatM fuel (Z.of_nat (length l)) f a0) k))).
    destruct (Z_le_gt_dec (d + Z.of_nat (sdepth x)) 64) as [Hsh|Hsh].
    + eapply RX_bind.
      * apply (Hf x (or_introl eq_refl) e a Hepos ltac:(lia) Hsh).
      * intros t. destruct l as [|y l]; cbn [enc_elems].
        -- apply (t_lend _ _ _ L).
        -- rewrite <- app_assoc. apply enc_start; auto.
           cbn [forallb] in Hw2. apply andb_prop in Hw2 as [? _]. assumption.
      * eapply IH; auto; try lia.
        -- intros; apply Hf; auto. right; assumption.
        -- intros; apply Hx; auto. right; assumption.
        -- apply (p_Ln _ _ _ L); eassumption.
    + apply RX_first. apply (Hx x (or_introl eq_refl) e a Hepos ltac:(lia)). lia.
Qed.

Lemma loop_items_deep {A B} d kt vt l (f : A -> M X A) (h : A -> value * value -> A)
    (k : A -> M X B) : d <= 64 -> hashable kt = true ->
  forallb (fun kv => match kv with
                     | (k, x) => wfd (dok L) env SL CL kt k && wfd (dok L) env SL CL vt x
                     end) l = true ->
  (forall kv, In kv l -> forall c e a, mpos L c e ->
     (length (enc L env e kt (fst kv)) <= F)%nat ->
     (length (enc L env (nxt L e) vt (snd kv)) <= F)%nat ->
     d + Z.of_nat (sdepth (snd kv)) <= 64 ->
     RD d (okT L) e (nxt L (nxt L e))
        (enc L env e kt (fst kv) ++ enc L env (nxt L e) vt (snd kv))
        (f a) (h a kv)) ->
  (forall kv, In kv l -> forall c e a, mpos L c e ->
     (length (enc L env e kt (fst kv)) <= F)%nat ->
     (length (enc L env (nxt L e) vt (snd kv)) <= F)%nat ->
     64 < d + Z.of_nat (sdepth (snd kv)) ->
     RX d e (enc L env e kt (fst kv) ++ enc L env (nxt L e) vt (snd kv)) (f a)) ->
  64 < d + Z.of_nat (sdepth (VMap l)) ->
  forall fuel c e a, mpos L c e -> (length l <= fuel)%nat ->
    (length (enc_items L env e kt vt l) <= F)%nat ->
    RX d e (enc_items L env e kt vt l)
       (bind (repeatM fuel (Z.of_nat (length l)) f a) k).
Proof.
  intros Hd Hk. induction l as [|[kx x] l IH];
    intros Hwf Hf Hx Hdeep fuel c e a He Hfuel HF.
  - cbn [sdepth fold_right] in Hdeep. lia.
  - cbn [forallb] in Hwf. apply andb_prop in Hwf as [Hw1 Hw2].
    apply andb_prop in Hw1 as [Hwk Hwx].
    cbn [length] in Hfuel. destruct fuel as [|fuel]; [lia|].
    cbn [enc_items sdepth fold_right] in *. rewrite !app_length in HF.
    pose proof (base_sdepth kt kx (hashable_base _ Hk) Hwk) as Hks.
    cbn [length repeatM].
    destruct (Z.of_nat (S (length l)) <=? 0) eqn:G; [lia|].
    replace (Z.of_nat (S (length l)) - 1) with (Z.of_nat (length l)) by lia.
    intros tail s i o Hs. rewrite bind_assoc. rewrite app_assoc in Hs.
    revert tail s i o Hs.
    change (RX d e ((enc L env e kt kx ++ enc L env (nxt L e) vt x)
                    ++ enc_items L env (nxt L (nxt L e)) kt vt l)
      (bind (f a) (fun a0 => bind (repeatM fuel (Z.of_nat (length l)) f a0) k))).
    destruct (Z_le_gt_dec (d + Z.of_nat (sdepth x)) 64) as [Hsh|Hsh].
    + eapply RX_bind.
      * apply (Hf (kx, x) (or_introl eq_refl) c e a He ltac:(cbn [fst]; lia)
          ltac:(cbn [snd]; lia) Hsh).
      * intros t. destruct l as [|[ky y] l]; cbn [enc_items].
        -- apply (t_mend _ _ _ L).
        -- rewrite <- app_assoc. apply enc_start.
           ++ eapply p_Mv; eauto.
           ++ cbn [forallb] in Hw2. apply andb_prop in Hw2 as [Hw2 _].
              apply andb_prop in Hw2 as [? _]. assumption.
      * eapply IH; auto; try lia.
        -- intros; eapply Hf; eauto. right; assumption.
        -- intros; eapply Hx; eauto. right; assumption.
        -- apply (p_Mn _ _ _ L); eassumption.
    + apply RX_first. apply (Hx (kx, x) (or_introl eq_refl) c e a He
        ltac:(cbn [fst]; lia) ltac:(cbn [snd]; lia)). cbn [snd]. lia.
Qed.

Lemma find_field_hit ds d : NoDup (map f_id ds) -> In d ds ->
  exists i, find_field ds (f_id d) = Some (i, d).
Proof.
  induction ds as [|d0 ds IH]; intros Hn Hi; [destruct Hi|].
  cbn [map] in Hn. inversion Hn as [|? ? Hni Hn']; subst. cbn [find_field].
  destruct Hi as [->|Hi].
  - rewrite Z.eqb_refl. exists O. reflexivity.
  - destruct (f_id d =? f_id d0) eqn:E.
    + exfalso. apply Hni. replace (f_id d0) with (f_id d) by lia.
      apply in_map, Hi.
    + destruct (IH Hn' Hi) as [i ->]. exists (S i). reflexivity.
Qed.

Lemma read_fields_deep d (rv : ty -> M X value) dsA : d <= 64 ->
  NoDup (map f_id dsA) -> forall fs ds, (forall dd, In dd ds -> In dd dsA) ->
  Forall (fun f => match f with
    | Some x => forall t, closed_ty env t = true -> forall c, rpos L c t x ->
        wfd (dok L) env SL CL t x = true -> (length (enc L env c t x) <= F)%nat ->
        (d + Z.of_nat (sdepth x) <= 64 ->
         RD d (tailQ L t) c (nxt L c) (enc L env c t x) (rv t) (proj env env t t x))
        /\ (64 < d + Z.of_nat (sdepth x) -> RX d c (enc L env c t x) (rv t))
    | None => True end) fs ->
  forall c f fuel acc, spos L c -> fpos L c f ->
    (forall dd, In dd ds -> idok L (f_id dd) = true) ->
    (forall dd, In dd ds -> closed_ty env (f_ty dd) = true) ->
    wf_fields (D := dok L) env SL CL fs ds = true ->
    (length (enc_fields L env f fs ds) <= F)%nat ->
    (length (enc_fields L env f fs ds) <= fuel)%nat ->
    64 < d + Z.of_nat (fold_right (fun f a => match f with
        | Some x => Nat.max (sdepth x) a | None => a end) O fs) ->
    RX d f (enc_fields L env f fs ds) (read_fields P fuel F rv dsA acc).
Proof.
  intros Hd Hnd. induction fs as [|[x|] fs IH]; intros [|dd ds] Hin Hfs c f fuel acc
    Hc Hf Hid Hcl Hwf HF Hfuel Hdeep; cbn [wf_fields] in Hwf; try discriminate.
  - cbn [fold_right] in Hdeep. lia.
  - apply andb_prop in Hwf as [Hw1 Hw2].
    inversion Hfs as [|? ? Hx Hfs2]; subst.
    assert (Hid1 := Hid dd (or_introl eq_refl)).
    assert (Hcl1 := Hcl dd (or_introl eq_refl)).
    cbn [enc_fields fold_right] in *. set (ob := fold_bool (f_ty dd) x) in *.
    rewrite !app_length in HF, Hfuel.
    pose proof (l_fbeg _ _ _ L f (f_id dd) (code (f_ty dd)) ob) as Hl1.
    destruct fuel as [|fuel]; [lia|].
    assert (Hrp : rpos L (inF L f (f_id dd) ob) (f_ty dd) x)
      by (eapply rpos_field; eauto).
    destruct (Hx (f_ty dd) Hcl1 _ Hrp Hw1 ltac:(lia)) as [Hok Hbad].
    destruct (find_field_hit dsA dd Hnd (Hin dd (or_introl eq_refl))) as [j Ej].
    cbn [read_fields].
    eapply RX_bind.
    + apply Rd_D. apply (r_fbeg _ _ _ L c f (f_id dd) (f_ty dd) ob Hf Hid1
                    (fold_bool_iff L env _ _ Hw1)).
    + intros; exact I.
    + cbn beta iota. rewrite code_not_stop, Ej, Z.eqb_refl.
      destruct (Z_le_gt_dec (d + Z.of_nat (sdepth x)) 64) as [Hs|Hs].
      * eapply RX_bind.
        -- apply (tailQ_weak L (f_ty dd)). apply Hok, Hs.
        -- intros t. rewrite <- app_assoc. apply (t_fend _ _ _ L).
        -- eapply RX_bind.
           ++ apply Rd_D. eapply r_fend; eauto.
           ++ intros; exact I.
           ++ eapply IH; eauto; try lia.
              ** intros; apply Hin; right; assumption.
              ** apply (p_fA _ _ _ L); assumption.
              ** intros; apply Hid; right; assumption.
              ** intros; apply Hcl; right; assumption.
      * apply RX_first, Hbad. lia.
  - apply andb_prop in Hwf as [Hw1 Hw2].
    inversion Hfs as [|? ? Hx Hfs2]; subst.
    cbn [enc_fields fold_right] in *. eapply IH; eauto.
    + intros; apply Hin; right; assumption.
    + intros; apply Hid; right; assumption.
    + intros; apply Hcl; right; assumption.
Qed.

Lemma read_shallow v d t c k : 0 <= d -> closed_ty env t = true -> rpos L c t v ->
  wfd (dok L) env SL CL t v = true -> d + Z.of_nat (sdepth v) <= 64 -> (sdepth v <= k)%nat ->
  (length (enc L env c t v) <= F)%nat ->
  RD d (tailQ L t) c (nxt L c) (enc L env c t v)
     (read_ty P (read_struct P env k F) F t) (proj env env t t v).
Proof.
  intros H0 Hc Hr Hw Hd Hk HF.
  apply (read_enc L env env (same env) Henv Henv
    (compat_env_same env Henv Hclosed) F); auto.
  - apply compat_same, Hc.
  - eapply drop_ok_same; eauto.
Qed.

Theorem read_deep v : forall d t c k, 0 <= d <= 64 -> closed_ty env t = true ->
  rpos L c t v -> wfd (dok L) env SL CL t v = true -> 64 < d + Z.of_nat (sdepth v) ->
  65 <= d + Z.of_nat k -> (length (enc L env c t v) <= F)%nat ->
  RX d c (enc L env c t v) (read_ty P (read_struct P env k F) F t).
Proof.
  induction v using value_rect'; intros d t c k Hd Hcl Hpos Hwf Hdeep Hk HF.
  1-6: cbn [sdepth] in Hdeep; lia.
  - destruct t as [| | | | | | | | |t| | |]; try discriminate Hwf.
    cbn [closed_ty] in Hcl. cbn [wfd] in Hwf. apply andb_prop in Hwf as [Hn Hl].
    cbn [rpos] in Hpos. rewrite enc_list in *. unfold len_le in Hn.
    rewrite app_length in HF. cbn [read_ty].
    assert (Hlp := p_L _ _ _ L c Hpos).
    pose proof (enc_elems_count L env t l c _ Hlp Hl).
    rewrite Forall_forall in H.
    eapply RX_bind; [apply Rd_D, r_lbeg; [exact Hpos|lia]|intros; apply (elems_start L env); assumption|].
    cbn beta iota.
    apply loop_elems_deep with (h := fun acc x => acc ++ [proj env env t t x]) (c := c);
      auto; try lia.
    + intros x Hx e acc He Hle Hs.
      apply (Rd_map (rrep L) _ _ _ _ _ _ _ (fun v => acc ++ [v])).
      apply (tailQ_weak L t). rewrite forallb_forall in Hl.
      apply read_shallow; auto; try lia. apply rpos_epos; assumption.
    + intros x Hx e acc He Hle Hs. apply RX_then. rewrite forallb_forall in Hl.
      apply H; auto. apply rpos_epos; assumption.
  - destruct t as [| | | | | | | | | |t| |]; try discriminate Hwf.
    cbn [wfd] in Hwf. apply andb_prop in Hwf as [Hn Hl].
    apply andb_prop in Hn as [Hn _]. apply andb_prop in Hn as [_ Hh].
    exfalso.
    assert (Hz : fold_right (fun x a => Nat.max (sdepth x) a) O l = O).
    { clear - Hl Hh. induction l as [|x l IH]; [reflexivity|].
      cbn [forallb] in Hl. apply andb_prop in Hl as [H1 H2]. cbn [fold_right].
      rewrite (base_sdepth t x (hashable_base _ Hh) H1), IH by assumption.
      reflexivity. }
    cbn [sdepth] in Hdeep. lia.
  - destruct t as [| | | | | | | | | | |kt vt|]; try discriminate Hwf.
    cbn [closed_ty] in Hcl. apply andb_prop in Hcl as [Hck Hcv].
    cbn [wfd] in Hwf. apply andb_prop in Hwf as [Hn Hl].
    apply andb_prop in Hn as [Hn _]. apply andb_prop in Hn as [Hn Hh].
    cbn [rpos] in Hpos. rewrite enc_map in *. unfold len_le in Hn.
    rewrite app_length in HF. cbn [read_ty].
    assert (Hmp := p_M _ _ _ L c Hpos).
    pose proof (enc_items_count L env kt vt l c _ Hmp Hl).
    rewrite Forall_forall in H.
    assert (Hlen : 0 < Z.of_nat (length l)).
    { destruct l; [cbn [sdepth fold_right] in Hdeep; lia|cbn [length]; lia]. }
    eapply RX_bind; [apply Rd_D, r_mbeg; [exact Hpos|lia]|intros; exact I|].
    rewrite (mret_pos _ _ _ L) by exact Hlen. cbn beta iota.
    rewrite forallb_forall in Hl.
    assert (Hrk : forall kv, In kv l -> forall c' e, mpos L c' e ->
      (length (enc L env e kt (fst kv)) <= F)%nat ->
      RD d (okT L) e (nxt L e) (enc L env e kt (fst kv))
        (read_ty P (read_struct P env k F) F kt) (proj env env kt kt (fst kv))).
    { intros [a x] Hx c' e He Hle. cbn [fst snd] in *.
      specialize (Hl _ Hx). cbn beta iota in Hl. apply andb_prop in Hl as [Hwk Hwx].
      pose proof (base_sdepth kt a (hashable_base _ Hh) Hwk).
      apply (tailQ_weak L kt). apply read_shallow; auto; try lia.
      apply rpos_epos. eapply p_Mk; eauto. }
    apply loop_items_deep with (c := c)
      (h := fun acc kv => dict_set acc (proj env env kt kt (fst kv))
                                   (proj env env vt vt (snd kv)));
      auto; try lia.
    + apply forallb_forall, Hl.
    + intros [a x] Hx c' e acc He H1 H2 Hs. cbn [fst snd] in *.
      pose proof (Hrk _ Hx c' e He H1) as R1. cbn [fst] in R1.
      specialize (Hl _ Hx). cbn beta iota in Hl. apply andb_prop in Hl as [Hwk Hwx].
      eapply Rd_bind; [exact R1| |].
      * intros tail _. apply enc_start; auto. eapply p_Mk; eauto.
      * rewrite Hh.
        apply (Rd_map (rrep L) _ _ _ _ _ _ _ (fun v => dict_set acc _ v)).
        apply (tailQ_weak L vt). apply read_shallow; auto; try lia.
        apply rpos_epos. eapply p_Mv; eauto.
    + intros [a x] Hx c' e acc He H1 H2 Hs. cbn [fst snd] in *.
      pose proof (Hrk _ Hx c' e He H1) as R1. cbn [fst] in R1.
      specialize (Hl _ Hx). cbn beta iota in Hl. apply andb_prop in Hl as [Hwk Hwx].
      eapply RX_bind; [exact R1| |].
      * intros tail. apply enc_start; auto. eapply p_Mk; eauto.
      * apply RX_then. destruct (H _ Hx) as [_ Hv]. cbn [snd] in Hv.
        apply Hv; auto. apply rpos_epos. eapply p_Mv; eauto.
  - destruct t as [| | | | | | | | | | | |m]; try discriminate Hwf.
    rewrite wf_struct in Hwf. apply andb_prop in Hwf as [Hn Hf].
    apply Nat.eqb_eq in Hn. subst m. cbn [rpos] in Hpos.
    destruct (nth_error env n) as [ds|] eqn:Eds; [|discriminate].
    rewrite (enc_struct L env c n n fs ds Eds) in *. rewrite app_length in HF.
    rewrite read_ty_struct. destruct k as [|k]; [lia|].
    cbn [read_struct]. rewrite Eds.
    destruct (Z_le_gt_dec (d + 1) 64) as [Hs|Hs]; [|apply RX_out; lia].
    apply RX_in; [exact Hs|].
    eapply RX_bind; [apply Rd_D, r_sbeg; exact Hpos|intros; exact I|].
    apply RX_then. cbn [sdepth] in Hdeep.
    destruct (Henv n ds Eds) as [Hnd Hid].
    apply read_fields_deep with (c := c) (ds := ds); auto; try lia.
    + rewrite Forall_forall in *. intros [x|] Hx; [|exact I].
      specialize (H _ Hx). cbn beta iota in H.
      intros t Ht c' Hc' Hw Hl. split; intros Hsx.
      * apply read_shallow; auto; lia.
      * apply H; auto; lia.
    + apply (p_fS _ _ _ L); assumption.
    + unfold schema_closed in Hclosed. rewrite forallb_forall in Hclosed.
      specialize (Hclosed ds (nth_error_In _ _ Eds)).
      rewrite forallb_forall in Hclosed. exact Hclosed.
Qed.

End Deep.
