(** Generic part of the proofs about the C decoder (ExtRead.v): if its
    primitives read the encoding described by a [laws] record, the decoder
    reads back what was written, as seen through the reader's schema. *)
From Coq Require Import ZArith List Bool Lia.
From Coq Require Import Init.Byte.
From Coq Require Import ZifyBool ZifyNat ZifyN.
From Verif Require Import Base Bytes Utf8 Utf8Facts Proto Spec Laws RoundTrip
  Dynamic DynamicFacts DynamicRead SpecDynamic Ext ExtRead SpecExt.
Import ListNotations.
Open Scope Z_scope.

(** The primitives of a decoder as a protocol object that only reads. *)
Definition proto_of {X} (D : dimpl X) : proto X :=
  let no {A} : M X A := raise ETypeError in {|
  writeMessageBegin := fun _ _ _ => no;
  writeMessageEnd := no;
  writeStructBegin := no;
  writeStructEnd := no;
  writeFieldBegin := fun _ _ => no;
  writeFieldEnd := no;
  writeFieldStop := no;
  writeMapBegin := fun _ _ _ => no;
  writeMapEnd := no;
  writeListBegin := fun _ _ => no;
  writeListEnd := no;
  writeSetBegin := fun _ _ => no;
  writeSetEnd := no;
  writeBool := fun _ => no;
  writeByte := fun _ => no;
  writeI16 := fun _ => no;
  writeI32 := fun _ => no;
  writeI64 := fun _ => no;
  writeDouble := fun _ => no;
  writeString := fun _ => no;
  writeBinary := fun _ => no;
  writeUuid := fun _ => no;
  readMessageBegin := no;
  readMessageEnd := no;
  readStructBegin := d_readStructBegin D;
  readStructEnd := fun s => (Ok tt, d_readStructEnd D s);
  readFieldBegin := d_readFieldBegin D;
  readFieldEnd := ret tt;
  readMapBegin := d_readMapBegin D;
  readMapEnd := ret tt;
  readListBegin := d_readListBegin D;
  readListEnd := ret tt;
  readSetBegin := d_readListBegin D;
  readSetEnd := ret tt;
  readBool := d_readBool D;
  readByte := d_readI8 D;
  readI16 := d_readI16 D;
  readI32 := d_readI32 D;
  readI64 := d_readI64 D;
  readDouble := d_readDouble D;
  readString := l <- d_readString D ;; ret (utf8_replace l);
  readBinary := d_readString D;
  readUuid := d_readUuid D |}.

(** The skip primitive for a base type. *)
Definition sk_base {X} (D : dimpl X) (t : ty) : M X unit :=
  match t with
  | TBool => d_skipBool D
  | TByte => d_skipByte D
  | TI16 => d_skipI16 D
  | TI32 => d_skipI32 D
  | TI64 => d_skipI64 D
  | TDouble => d_skipDouble D
  | TUuid => d_skipUuid D
  | _ => d_skipString D
  end.

Lemma read_base_of {X} (D : dimpl X) t s :
  base_ty t = true -> read_base (proto_of D) t s = decode_base D t s.
Proof.
  destruct t; intros H; try discriminate H; try reflexivity.
  cbn [read_base decode_base proto_of readString]. unfold bind, ret.
  destruct (d_readString D s) as [[l|e|] s']; reflexivity.
Qed.

Lemma bind_pt {X A B} (m : M X A) (k k' : A -> M X B) s :
  (forall a s', k a s' = k' a s') -> bind m k s = bind m k' s.
Proof.
  intros H. unfold bind. destruct (m s) as [[a|e|] s']; auto.
Qed.

Section Gen.
Context {X : Type} {D : dimpl X} {SL CL : Z} (L : laws (proto_of D) SL CL).
Notation RD := (RdD (rrep L)).

Hypothesis Hsk : forall c t v,
  (match v with VBool b => bpos L c b | _ => vpos L c end) ->
  base_ty t = true -> base_okd (dok L) SL t v = true ->
  Rd (rrep L) (okT L) c (nxt L c) (e_base L c t v) (sk_base D t) tt.

Lemma Rd_ext {A} d Q c c' bs (m m' : M X A) v : (forall s, m s = m' s) ->
  RD d Q c c' bs m v -> RD d Q c c' bs m' v.
Proof. intros E H tail Ht x i o Hx. rewrite <- E. apply H; assumption. Qed.

Lemma Rd_guard {A} d Q c c' bs (m : M X A) v : d + 1 <= 64 ->
  RD (d + 1) Q c c' bs m v -> RD d Q c c' bs (recursion_guard m) v.
Proof.
  intros Hd H tail Ht x i o Hx. destruct (H tail Ht x i o Hx) as (x1 & i1 & E & R).
  exists x1, i1. split; [|exact R]. unfold recursion_guard, try_finally.
  cbn [px inp out depth]. destruct (d + 1 >? 64) eqn:G; [lia|]. rewrite E.
  cbn [px inp out depth]. do 2 f_equal. lia.
Qed.

Lemma Rd_scope {A} d Q c c' bs (m : M X A) v :
  RD d Q c c' bs (readStructBegin (proto_of D) ;;;
                  (r <- m ;; (readStructEnd (proto_of D) ;;; ret r))) v ->
  RD d Q c c' bs (read_scope D m) v.
Proof.
  intros H tail Ht x i o Hx. destruct (H tail Ht x i o Hx) as (x1 & i1 & E & R).
  exists x1, i1. split; [|exact R]. revert E.
  unfold read_scope, try_finally, bind, ret. cbn [proto_of readStructBegin readStructEnd].
  destruct (d_readStructBegin D _) as [[[]|e|] s1]; try discriminate.
  destruct (m s1) as [[r|e|] s2]; try discriminate. auto.
Qed.

Lemma Rd_map_begin d Q c c' bs v :
  RD d Q c c' bs (readMapBegin (proto_of D)) v -> RD d Q c c' bs (map_begin D) v.
Proof.
  intros H tail Ht x i o Hx. destruct (H tail Ht x i o Hx) as (x1 & i1 & E & R).
  exists x1, i1. split; [|exact R]. unfold map_begin. cbn [proto_of readMapBegin] in E.
  rewrite E. reflexivity.
Qed.

Lemma Rd_end {A} d c c' bs (v : A) :
  RD d anyT c c' bs (ret tt) tt -> RD d anyT c c' bs (ret v) v.
Proof.
  intros H. exact (Rd_map (rrep L) d anyT c c' bs (ret tt) tt (fun _ => v) H).
Qed.

Lemma Rd_test {A} d Q c c' bs (b : bool) (m : M X A) v : b = false ->
  RD d Q c c' bs m v ->
  RD d Q c c' bs ((if b then raise ETypeError else ret tt) ;;; m) v.
Proof. intros -> H. exact H. Qed.

(** * Skipping *)

Section Skip.
Variable env : schema.
Hypothesis Henv : schema_okd (idok L) env.
Variable F : nat.

Lemma cskip_code k t : cskip D F (S k) (code t) =
  recursion_guard (match t with
  | TStruct _ => read_scope D (cskip_fields D F (cskip D F k))
  | TMap _ _ =>
      '(ktype, vtype, size) <- d_readMapBegin D ;;
      repeatM F size
        (fun _ : unit => cskip D F k ktype ;;; cskip D F k vtype) tt
  | TSet _ | TList _ =>
      '(etype, size) <- d_readListBegin D ;;
      repeatM F size (fun _ : unit => cskip D F k etype) tt
  | t => sk_base D t
  end).
Proof. destruct t; reflexivity. Qed.

Lemma cskip_fields_enc d (sk : Z -> M X unit) fs : forall ds,
  Forall (fun f => match f with
    | Some x => forall t c, rpos L c t x -> wfd (dok L) env SL CL t x = true ->
        (length (enc L env c t x) <= F)%nat ->
        RD d (tailQ L t) c (nxt L c) (enc L env c t x) (sk (code t)) tt
    | None => True end) fs ->
  forall c f fuel, spos L c -> fpos L c f ->
    (forall dd, In dd ds -> idok L (f_id dd) = true) ->
    wf_fields (D := dok L) env SL CL fs ds = true ->
    (length (enc_fields L env f fs ds) <= F)%nat ->
    (length (enc_fields L env f fs ds) <= fuel)%nat ->
    RD d anyT f (nxt L c) (enc_fields L env f fs ds)
       (cskip_fields D fuel sk ;;; readStructEnd (proto_of D)) tt.
Proof.
  induction fs as [|[x|] fs IH]; intros [|dd ds] Hfs c f fuel Hc Hf Hid Hwf HF
    Hfuel; cbn [wf_fields] in Hwf; try discriminate.
  - pose proof (enc_fields_pos L env [] f []) as Hpos.
    destruct fuel as [|fuel]; [lia|]. cbn [enc_fields cskip_fields].
    intros tail _ s i o Hs.
    destruct (r_stop _ _ _ L c f Hf tail) as [z Hz].
    pose proof (r_send _ _ _ L c f Hc Hf) as He.
    apply (Rd_D _ _ _ _ _ _ _ d) in Hz. apply (Rd_D _ _ _ _ _ _ _ d) in He.
    rewrite <- app_assoc in Hs.
    destruct (Hz _ eq_refl s i o Hs) as (x1 & i1 & E1 & R1).
    destruct (He tail I x1 i1 o R1) as (x2 & i2 & E2 & R2).
    exists x2, i2. split; [|exact R2].
    unfold bind. cbn [proto_of readFieldBegin] in E1. rewrite E1.
    change (T_STOP =? T_STOP) with true. cbn [ret]. exact E2.
  - apply andb_prop in Hwf as [Hw1 Hw2].
    inversion Hfs as [|? ? Hx Hfs2]; subst.
    assert (Hid1 := Hid dd (or_introl eq_refl)).
    assert (Hid2 : forall d0, In d0 ds ->
              idok L (f_id d0) = true)
      by (intros; apply Hid; right; assumption).
    cbn [enc_fields] in *. set (ob := fold_bool (f_ty dd) x) in *.
    rewrite !app_length in HF, Hfuel.
    pose proof (l_fbeg _ _ _ L f (f_id dd) (code (f_ty dd)) ob) as Hl1.
    destruct fuel as [|fuel]; [lia|].
    assert (R1 := r_fbeg _ _ _ L c f (f_id dd) (f_ty dd) ob Hf Hid1
                    (fold_bool_iff L env _ _ Hw1)).
    assert (R2 : RD d (okT L) (inF L f (f_id dd) ob)
              (nxt L (inF L f (f_id dd) ob))
              (enc L env (inF L f (f_id dd) ob) (f_ty dd) x)
              (sk (code (f_ty dd))) tt).
    { apply (tailQ_weak L (f_ty dd)). apply Hx; auto; [|lia].
      eapply rpos_field; eauto. }
    assert (R3 := r_fend _ _ _ L c f (f_id dd) ob Hf).
    assert (R4 := IH ds Hfs2 c (aft L f (f_id dd)) fuel Hc
                    (p_fA _ _ _ L _ _ _ Hf) Hid2 Hw2 ltac:(lia) ltac:(lia)).
    apply (Rd_D _ _ _ _ _ _ _ d) in R1. apply (Rd_D _ _ _ _ _ _ _ d) in R3.
    assert (R34 := Rd_bind _ _ _ _ _ _ _ _ _ _ (fun _ =>
       cskip_fields D fuel sk ;;; readStructEnd (proto_of D)) _ _ R3
       (fun _ _ => I) R4).
    assert (R234 := Rd_bind _ _ _ _ _ _ _ _ _ _ (fun _ =>
       readFieldEnd (proto_of D) ;;; cskip_fields D fuel sk ;;;
       readStructEnd (proto_of D)) _ _ R2
       ltac:(intros t _; rewrite <- app_assoc; apply (t_fend _ _ _ L)) R34).
    assert (R := Rd_bind _ _ _ _ _ _ _ _ _ _ (fun _ =>
       sk (code (f_ty dd)) ;;;
       readFieldEnd (proto_of D) ;;; cskip_fields D fuel sk ;;;
       readStructEnd (proto_of D)) _ _ R1
       (fun _ _ => I) R234).
    intros tail Ht s i o Hs. destruct (R tail Ht s i o Hs) as (x1 & i1 & E1 & Q1).
    destruct (R1 _ I s i o ltac:(rewrite <- app_assoc in Hs; exact Hs))
      as (x0 & i0 & E0 & _).
    exists x1, i1. split; [|exact Q1]. rewrite <- E1.
    unfold bind. cbn [cskip_fields]. unfold bind.
    cbn [proto_of readFieldBegin readFieldEnd] in *.
    rewrite E0. cbn beta iota.
    rewrite code_not_stop.
    destruct (sk _ _) as [[[]|e0|] s2]; reflexivity.
  - apply andb_prop in Hwf as [Hw1 Hw2].
    inversion Hfs as [|? ? Hx Hfs2]; subst.
    cbn [enc_fields] in *.
    apply IH; auto. intros; apply Hid; right; assumption.
Qed.

Theorem cskip_enc v : forall d k t c, rpos L c t v ->
  wfd (dok L) env SL CL t v = true -> (vdepth v <= k)%nat ->
  d + Z.of_nat (vdepth v) <= 64 ->
  (length (enc L env c t v) <= F)%nat ->
  RD d (tailQ L t) c (nxt L c) (enc L env c t v) (cskip D F k (code t)) tt.
Proof.
  induction v using value_rect'; intros d k t c Hpos Hwf Hk Hd HF.
  1-6: assert (Hb : base_ty t = true)
         by (destruct t; try reflexivity; discriminate Hwf);
       rewrite wf_base in Hwf by assumption;
       cbn [vdepth] in Hk, Hd;
       destruct k as [|k]; [lia|];
       match goal with |- RD _ _ _ _ (enc _ _ _ _ ?v) _ _ =>
         replace (enc L env c t v) with (e_base L c t v)
           by (destruct t; try reflexivity; discriminate Hb);
         assert (Rb := Hsk c t v)
       end;
       rewrite cskip_code; apply Rd_guard; [lia|];
       destruct t; try discriminate Hwf;
       cbn [rpos tailQ] in *;
       specialize (Rb Hpos Hb Hwf); apply (Rd_D _ _ _ _ _ _ _ (d + 1)) in Rb;
       exact Rb.
  - destruct t as [| | | | | | | | |et| | |]; try discriminate Hwf.
    cbn [wfd] in Hwf. apply andb_prop in Hwf as [Hn Hl]. cbn [rpos tailQ] in *.
    assert (Hv1 : (1 <= vdepth (VList l))%nat) by (cbn [vdepth]; lia).
    destruct k as [|k]; [lia|].
    rewrite enc_list in *. rewrite cskip_code. unfold len_le in Hn.
    apply Rd_guard; [lia|].
    rewrite app_length in HF. apply (Rd_weak _ _ anyT); [|intros; exact I].
    assert (Hlp := p_L _ _ _ L c Hpos).
    pose proof (enc_elems_count L env et l c _ Hlp Hl).
    eapply Rd_bind; [apply Rd_D, (r_lbeg _ _ _ L); [exact Hpos|lia]|intros; apply elems_start; assumption|].
    cbn beta iota.
    apply (Rd_ext _ _ _ _ _ (r <- repeatM F (Z.of_nat (length l))
        (fun _ : unit => cskip D F k (code et)) tt ;; ret tt)).
    { intros s. unfold bind, ret. destruct (repeatM _ _ _ _ s) as [[[]|e|] s']; reflexivity. }
    apply loop_elems with (h := fun _ _ => tt) (F := F); auto; try lia.
    + intros x Hx e a He Hle. apply (tailQ_weak L et).
      rewrite Forall_forall in H. rewrite forallb_forall in Hl.
      assert (vdepth x <= pred (vdepth (VList l)))%nat.
      { apply (fold_max_le' vdepth l); auto. }
      apply H; auto; try lia.
      apply rpos_epos; assumption.
    + intros e' He'. apply Rd_end. apply Rd_D.
      exact (r_lend _ _ _ L c e' Hpos He').
  - destruct t as [| | | | | | | | | |et| |]; try discriminate Hwf.
    cbn [wfd] in Hwf. apply andb_prop in Hwf as [Hn Hl].
    apply andb_prop in Hn as [Hn _]. apply andb_prop in Hn as [Hn _].
    cbn [rpos tailQ] in *.
    assert (Hv1 : (1 <= vdepth (VSet l))%nat) by (cbn [vdepth]; lia).
    destruct k as [|k]; [lia|].
    rewrite enc_set in *. rewrite cskip_code. unfold len_le in Hn.
    apply Rd_guard; [lia|].
    rewrite app_length in HF. apply (Rd_weak _ _ anyT); [|intros; exact I].
    assert (Hlp := p_L _ _ _ L c Hpos).
    pose proof (enc_elems_count L env et l c _ Hlp Hl).
    eapply Rd_bind; [apply Rd_D, (r_tbeg _ _ _ L); [exact Hpos|lia]|intros; apply elems_start; assumption|].
    cbn beta iota.
    apply (Rd_ext _ _ _ _ _ (r <- repeatM F (Z.of_nat (length l))
        (fun _ : unit => cskip D F k (code et)) tt ;; ret tt)).
    { intros s. unfold bind, ret. destruct (repeatM _ _ _ _ s) as [[[]|e|] s']; reflexivity. }
    apply loop_elems with (h := fun _ _ => tt) (F := F); auto; try lia.
    + intros x Hx e a He Hle. apply (tailQ_weak L et).
      rewrite Forall_forall in H. rewrite forallb_forall in Hl.
      assert (vdepth x <= pred (vdepth (VSet l)))%nat.
      { apply (fold_max_le' vdepth l); auto. }
      apply H; auto; try lia.
      apply rpos_epos; assumption.
    + intros e' He'. apply Rd_end. apply Rd_D.
      exact (r_tend _ _ _ L c e' Hpos He').
  - destruct t as [| | | | | | | | | | |kt vt|]; try discriminate Hwf.
    cbn [wfd] in Hwf. apply andb_prop in Hwf as [Hn Hl].
    apply andb_prop in Hn as [Hn _]. apply andb_prop in Hn as [Hn _].
    cbn [rpos tailQ] in *.
    assert (Hv1 : (1 <= vdepth (VMap l))%nat) by (cbn [vdepth]; lia).
    destruct k as [|k]; [lia|].
    pose proof (vdepth_map l (pred (vdepth (VMap l))) ltac:(lia)) as Hvd.
    rewrite enc_map in *. rewrite cskip_code. unfold len_le in Hn.
    apply Rd_guard; [lia|].
    rewrite app_length in HF. apply (Rd_weak _ _ anyT); [|intros; exact I].
    assert (Hlp := p_M _ _ _ L c Hpos).
    pose proof (enc_items_count L env kt vt l c _ Hlp Hl).
    eapply Rd_bind; [apply Rd_D, (r_mbeg _ _ _ L); [exact Hpos|lia]|intros; exact I|].
    assert (Hmr : exists a b, mret L (code kt) (code vt) (Z.of_nat (length l))
              = (a, b, Z.of_nat (length l))
              /\ (l <> [] -> a = code kt /\ b = code vt)).
    { destruct l as [|kv l].
      - pose proof (mret_zero _ _ _ L (code kt) (code vt)) as Hz.
        cbn [length]. change (Z.of_nat 0) with 0.
        destruct (mret L (code kt) (code vt) 0) as [[a b] n]. cbn in Hz. subst n.
        exists a, b. split; [reflexivity|congruence].
      - exists (code kt), (code vt). split; [|auto].
        apply (mret_pos _ _ _ L). cbn [length]. lia. }
    destruct Hmr as (ka & va & -> & Hka).
    cbn beta iota.
    apply (Rd_ext _ _ _ _ _ (r <- repeatM F (Z.of_nat (length l))
        (fun _ : unit => cskip D F k ka ;;; cskip D F k va) tt ;; ret tt)).
    { intros s. unfold bind at 1. unfold ret.
      destruct (repeatM _ _ _ _ s) as [[[]|e|] s']; reflexivity. }
    apply loop_items with (h := fun _ _ => tt) (F := F); auto; try lia.
    + intros [kx x] Hx c' e a He Hle1 Hle2. cbn [fst snd] in *.
      rewrite Forall_forall in H, Hvd. rewrite forallb_forall in Hl.
      specialize (H _ Hx). specialize (Hl _ Hx).
      specialize (Hvd _ Hx). cbn [fst snd] in *.
      destruct Hka as [-> ->]; [intros ->; destruct Hx|].
      apply andb_prop in Hl as [Hlk Hlx].
      destruct H as [IHk IHx]. destruct Hvd as [Hvk Hvx].
      eapply Rd_bind.
      * apply (tailQ_weak L kt). apply IHk; auto; try lia.
        apply rpos_epos. eapply p_Mk; eauto.
      * intros t _. apply enc_start; auto. eapply p_Mk; eauto.
      * apply (tailQ_weak L vt). apply IHx; auto; try lia.
        apply rpos_epos. eapply p_Mv; eauto.
    + intros e' He'. apply Rd_end. apply Rd_D.
      exact (r_mend _ _ _ L c e' Hpos He').
  - destruct t as [| | | | | | | | | | | |m]; try discriminate Hwf.
    rewrite wf_struct in Hwf. apply andb_prop in Hwf as [Hn Hf].
    apply Nat.eqb_eq in Hn. subst m. cbn [rpos tailQ] in *.
    destruct (nth_error env n) as [ds|] eqn:Eds; [|discriminate].
    assert (Hv1 : (1 <= vdepth (VStruct n fs))%nat) by (cbn [vdepth]; lia).
    destruct k as [|k]; [lia|].
    pose proof (vdepth_struct n fs (pred (vdepth (VStruct n fs))) ltac:(lia)) as Hvd.
    rewrite (enc_struct L env c n n fs ds Eds) in *. rewrite app_length in HF.
    rewrite cskip_code. apply Rd_guard; [lia|]. apply Rd_scope.
    eapply Rd_bind; [apply Rd_D, (r_sbeg _ _ _ L); exact Hpos|intros; exact I|].
    apply (Rd_ext _ _ _ _ _ (cskip_fields D F (cskip D F k) ;;;
             readStructEnd (proto_of D))).
    { intros s. unfold bind, ret. destruct (cskip_fields _ _ _ s) as [[[]|e|] s']; try reflexivity. }
    apply cskip_fields_enc; auto; try lia.
    + rewrite Forall_forall in *. intros [x|] Hx; [|exact I].
      specialize (H _ Hx). specialize (Hvd _ Hx).
      cbn beta iota in *. intros; apply H; auto; lia.
    + apply (p_fS _ _ _ L); assumption.
    + apply (Henv n ds Eds).
Qed.
End Skip.

(** * Reading *)

Section Read.
Variables envW envR : schema.
Variable R : nat -> nat -> bool.
Hypothesis HenvW : schema_okd (idok L) envW.
Hypothesis HenvR : table_schema envR.
Hypothesis HR : compat_env envW envR R.
Variable F : nat.

(** The dropped parts of a struct's fields can be skipped. *)
Fixpoint within_fields (dsR : list fielddef) (k : nat)
    (fs : list (option value)) (ds : list fielddef) : bool :=
  match fs, ds with
  | f :: fs', d :: ds' =>
      match f with
      | Some x =>
          match find (fun dR => (f_id d =? f_id dR)
                       && (code (f_ty d) =? code (f_ty dR))) dsR with
          | Some dR => drop_within envW envR k (f_ty d) (f_ty dR) x
          | None => (vdepth x <=? k)%nat
          end
      | None => true
      end && within_fields dsR k fs' ds'
  | _, _ => true
  end.

Lemma within_struct k a m n fs dsW dsR :
  nth_error envW n = Some dsW -> nth_error envR m = Some dsR ->
  drop_within envW envR k (TStruct a) (TStruct m) (VStruct n fs) =
  within_fields dsR (pred k) fs dsW.
Proof.
  intros H1 H2. cbn [drop_within]. rewrite H1, H2. clear H1 H2. revert dsW.
  induction fs as [|[x|] fs IH]; intros [|d ds]; cbn [within_fields];
    try reflexivity; f_equal; apply IH.
Qed.

Lemma clookup ds tag : sorted_ids ds ->
  (if (tag <? 0) || (tag >=? Z.of_nat (length (thrift_spec ds))) then None
   else match nth_error (thrift_spec ds) (Z.to_nat tag) with
        | Some o => o | None => None end) = find_field ds tag.
Proof.
  intros H. destruct (tag <? 0) eqn:E1; cbn [orb].
  - destruct (find_field ds tag) as [[i d]|] eqn:Ef; [|reflexivity].
    destruct (find_field_In _ _ _ _ Ef) as [Hi He].
    destruct H as [_ Hb]. specialize (Hb _ Hi). lia.
  - rewrite <- (lookup_find ds tag H) by lia. unfold py_index.
    destruct (tag >=? _) eqn:E2.
    + replace (_ && _) with false by lia.
      destruct ((- _ <=? tag) && _) eqn:E3; [lia|reflexivity].
    + replace (_ && _) with true by lia. reflexivity.
Qed.

Lemma cread_fields_step f skfuel skdepth rv ds acc s : sorted_ids ds ->
  cread_fields D (S f) skfuel skdepth rv (thrift_spec ds) acc s =
  bind (d_readFieldBegin D) (fun p => let '(type, tag) := p in
    if type =? T_STOP then ret acc
    else match find_field ds tag with
         | Some (i, d) =>
             if type =? code (f_ty d) then
               v <- rv (f_ty d) ;;
               cread_fields D f skfuel skdepth rv (thrift_spec ds)
                 (set_nth i (Some v) acc)
             else
               cskip D skfuel skdepth type ;;;
               cread_fields D f skfuel skdepth rv (thrift_spec ds) acc
         | None =>
             cskip D skfuel skdepth type ;;;
             cread_fields D f skfuel skdepth rv (thrift_spec ds) acc
         end) s.
Proof.
  intros H. cbn [cread_fields]. apply bind_pt. intros [type tag] s1.
  destruct (type =? T_STOP); [reflexivity|].
  rewrite <- (clookup ds tag H).
  destruct ((tag <? 0) || _); [reflexivity|].
  destruct (nth_error _ _) as [[[i d]|]|]; try reflexivity.
  rewrite (Z.eqb_sym type). destruct (_ =? _); reflexivity.
Qed.

Lemma cread_fields_enc {B} d dsR (rv : ty -> M X value) kd sd
    (k : list (option value) -> M X B) w fs :
  NoDup (map f_id dsR) -> sorted_ids dsR ->
  d + Z.of_nat kd <= 64 -> (kd <= sd)%nat ->
  forall dsW,
  compat_fields R dsW dsR ->
  Forall (fun f => match f with
    | Some x => forall t tR c, rpos L c t x -> wfd (dok L) envW SL CL t x = true ->
        compat R t tR = true ->
        (length (enc L envW c t x) <= F)%nat ->
        drop_within envW envR kd t tR x = true ->
        RD d (tailQ L t) c (nxt L c) (enc L envW c t x) (rv tR)
           (proj envW envR t tR x)
    | None => True end) fs ->
  forall c f fuel acc, spos L c -> fpos L c f ->
    (forall dd, In dd dsW -> idok L (f_id dd) = true) ->
    wf_fields (D := dok L) envW SL CL fs dsW = true ->
    within_fields dsR kd fs dsW = true ->
    (length (enc_fields L envW f fs dsW) <= F)%nat ->
    (length (enc_fields L envW f fs dsW) <= fuel)%nat ->
    k (upd_fields envW envR dsR fs dsW acc) = ret w ->
    RD d anyT f (nxt L c) (enc_fields L envW f fs dsW)
       (acc' <- cread_fields D fuel F sd rv (thrift_spec dsR) acc ;;
        readStructEnd (proto_of D) ;;; k acc') w.
Proof.
  intros HndR Hsrt Hkd Hsd.
  induction fs as [|[x|] fs IH]; intros [|dd ds] Hcf Hfs c f fuel acc Hc Hf Hid
    Hwf Hdr HF Hfuel Hk; cbn [wf_fields] in Hwf; try discriminate.
  - pose proof (enc_fields_pos L envW [] f []) as Hpos.
    destruct fuel as [|fuel]; [lia|]. cbn [enc_fields].
    intros tail _ s i o Hs.
    destruct (r_stop _ _ _ L c f Hf tail) as [z Hz].
    pose proof (r_send _ _ _ L c f Hc Hf) as He.
    apply (Rd_D _ _ _ _ _ _ _ d) in Hz. apply (Rd_D _ _ _ _ _ _ _ d) in He.
    rewrite <- app_assoc in Hs.
    destruct (Hz _ eq_refl s i o Hs) as (x1 & i1 & E1 & R1).
    destruct (He tail I x1 i1 o R1) as (x2 & i2 & E2 & R2).
    exists x2, i2. split; [|exact R2].
    unfold bind at 1. rewrite cread_fields_step by assumption.
    cbn [proto_of readFieldBegin] in E1.
    unfold bind at 1. rewrite E1.
    change (T_STOP =? T_STOP) with true. cbn [ret]. unfold bind. rewrite E2.
    cbn [upd_fields] in Hk. rewrite Hk. reflexivity.
  - apply andb_prop in Hwf as [Hw1 Hw2].
    cbn [within_fields] in Hdr. apply andb_prop in Hdr as [Hdr1 Hdr2].
    inversion Hfs as [|? ? Hx Hfs2]; subst.
    assert (Hid1 := Hid dd (or_introl eq_refl)).
    assert (Hid2 : forall d0, In d0 ds ->
              idok L (f_id d0) = true)
      by (intros; apply Hid; right; assumption).
    assert (Hcf2 : compat_fields R ds dsR)
      by (intros dW dR HiW; apply Hcf; right; assumption).
    cbn [enc_fields] in *. set (ob := fold_bool (f_ty dd) x) in *.
    rewrite !app_length in HF, Hfuel.
    pose proof (l_fbeg _ _ _ L f (f_id dd) (code (f_ty dd)) ob) as Hl1.
    destruct fuel as [|fuel]; [lia|].
    assert (R1 := r_fbeg _ _ _ L c f (f_id dd) (f_ty dd) ob Hf Hid1
                    (fold_bool_iff L envW _ _ Hw1)).
    assert (R3 := r_fend _ _ _ L c f (f_id dd) ob Hf).
    apply (Rd_D _ _ _ _ _ _ _ d) in R1. apply (Rd_D _ _ _ _ _ _ _ d) in R3.
    assert (Hrp : rpos L (inF L f (f_id dd) ob) (f_ty dd) x)
      by (eapply rpos_field; eauto).
    rewrite (find_field_find dsR dd HndR) in Hdr1.
    cbn [upd_fields] in Hk.
    assert (Hstep : exists acc1 (m : M X unit),
      RD d (okT L) (inF L f (f_id dd) ob) (nxt L (inF L f (f_id dd) ob))
         (enc L envW (inF L f (f_id dd) ob) (f_ty dd) x) m tt
      /\ k (upd_fields envW envR dsR fs ds acc1) = ret w
      /\ forall s i o,
           rrep L (inF L f (f_id dd) ob) s i
             (enc L envW (inF L f (f_id dd) ob) (f_ty dd) x
              ++ e_fend L ++ o) ->
           forall oo,
           match find_field dsR (f_id dd) with
             | Some (i, d) =>
                 if code (f_ty dd) =? code (f_ty d) then
                   v <- rv (f_ty d) ;;
                   cread_fields D fuel F sd rv (thrift_spec dsR)
                     (set_nth i (Some v) acc)
                 else
                   cskip D F sd (code (f_ty dd)) ;;;
                   cread_fields D fuel F sd rv (thrift_spec dsR) acc
             | None =>
                 cskip D F sd (code (f_ty dd)) ;;;
                 cread_fields D fuel F sd rv (thrift_spec dsR) acc
             end (mkst s i oo d)
           = (m ;;; readFieldEnd (proto_of D) ;;;
              cread_fields D fuel F sd rv (thrift_spec dsR) acc1)
               (mkst s i oo d)).
    { assert (Hskip : (vdepth x <=? kd)%nat = true ->
        RD d (okT L) (inF L f (f_id dd) ob) (nxt L (inF L f (f_id dd) ob))
         (enc L envW (inF L f (f_id dd) ob) (f_ty dd) x)
         (cskip D F sd (code (f_ty dd))) tt).
      { intros Hs1. apply (tailQ_weak L (f_ty dd)).
        apply cskip_enc; auto; lia. }
      destruct (find_field dsR (f_id dd)) as [[i dR]|] eqn:Ef.
      - destruct (find_field_In _ _ _ _ Ef) as [HiR HidR].
        destruct (code (f_ty dd) =? code (f_ty dR)) eqn:Ec.
        + assert (Hc1 : compat R (f_ty dd) (f_ty dR) = true).
          { apply Hcf; auto; [left; reflexivity|lia]. }
          assert (Rv : RD d (okT L) (inF L f (f_id dd) ob)
             (nxt L (inF L f (f_id dd) ob))
             (enc L envW (inF L f (f_id dd) ob) (f_ty dd) x) (rv (f_ty dR))
             (proj envW envR (f_ty dd) (f_ty dR) x)).
          { apply (tailQ_weak L (f_ty dd)). apply Hx; auto. lia. }
          exists (set_nth i (Some (proj envW envR (f_ty dd) (f_ty dR) x)) acc),
                 (rv (f_ty dR) ;;; ret tt).
          split; [eapply Rd_drop; exact Rv|]. split; [exact Hk|].
          intros s i0 o Hs oo.
          destruct (Rv (e_fend L ++ o) ltac:(apply (t_fend _ _ _ L)) s i0 oo Hs)
            as (x1 & i1 & E1 & _).
          unfold bind. rewrite E1. reflexivity.
        + exists acc, (cskip D F sd (code (f_ty dd))).
          split; [apply Hskip; exact Hdr1|]. split; [exact Hk|].
          intros s i0 o Hs oo. reflexivity.
      - exists acc, (cskip D F sd (code (f_ty dd))).
        split; [apply Hskip; exact Hdr1|]. split; [exact Hk|].
        intros s i0 o Hs oo. reflexivity. }
    destruct Hstep as (acc1 & m & R2 & Hk1 & Heq).
    assert (R4 := IH ds Hcf2 Hfs2 c (aft L f (f_id dd)) fuel acc1 Hc
                    (p_fA _ _ _ L _ _ _ Hf) Hid2 Hw2 Hdr2 ltac:(lia)
                    ltac:(lia) Hk1).
    assert (R34 := Rd_bind _ _ _ _ _ _ _ _ _ _ (fun _ =>
       acc' <- cread_fields D fuel F sd rv (thrift_spec dsR) acc1 ;;
       readStructEnd (proto_of D) ;;; k acc')
       _ _ R3 (fun _ _ => I) R4).
    assert (R234 := Rd_bind _ _ _ _ _ _ _ _ _ _ (fun _ =>
       readFieldEnd (proto_of D) ;;;
       acc' <- cread_fields D fuel F sd rv (thrift_spec dsR) acc1 ;;
       readStructEnd (proto_of D) ;;; k acc') _ _ R2
       ltac:(intros t _; rewrite <- app_assoc; apply (t_fend _ _ _ L)) R34).
    intros tail Ht s i o Hs. rewrite <- app_assoc in Hs.
    destruct (R1 _ I s i o Hs) as (x1 & i1 & E1 & Q1).
    destruct (R234 tail Ht x1 i1 o Q1) as (x2 & i2 & E2 & Q2).
    exists x2, i2. split; [|exact Q2]. rewrite <- E2.
    rewrite <- !app_assoc in Q1. specialize (Heq x1 i1 _ Q1 o).
    unfold bind at 1. rewrite cread_fields_step by assumption.
    cbn [proto_of readFieldBegin] in E1.
    rewrite (bind_ok _ _ _ _ _ E1). cbn beta iota. rewrite code_not_stop.
    rewrite Heq. unfold bind.
    destruct (m _) as [[[]|e0|] s2]; try reflexivity.
  - apply andb_prop in Hwf as [Hw1 Hw2].
    inversion Hfs as [|? ? Hx Hfs2]; subst.
    cbn [enc_fields within_fields upd_fields] in *.
    apply IH; auto.
    + intros dW dR HiW; apply Hcf; right; assumption.
    + intros; apply Hid; right; assumption.
Qed.

Theorem cread_enc v : forall d kd tW tR c dfuel, 0 <= d ->
  d + Z.of_nat kd <= 64 -> (kd <= dfuel)%nat ->
  compat R tW tR = true -> rpos L c tW v -> wfd (dok L) envW SL CL tW v = true ->
  d + Z.of_nat (sdepth v) <= 64 -> (sdepth v <= dfuel)%nat ->
  (length (enc L envW c tW v) <= F)%nat ->
  drop_within envW envR kd tW tR v = true ->
  RD d (tailQ L tW) c (nxt L c) (enc L envW c tW v)
     (decodeValue D (cread_struct D envR dfuel F) F tR) (proj envW envR tW tR v).
Proof.
  induction v using value_rect';
    intros d kd tW tR c dfuel Hd0 Hkd Hkf Hcmp Hpos Hwf Hd Hdf HF Hdr.
  1-6: assert (Hb : base_ty tW = true)
         by (destruct tW; try reflexivity; discriminate Hwf);
       rewrite wf_base in Hwf by assumption;
       pose proof (compat_base R _ _ Hb Hcmp); subst tR;
       rewrite proj_base by assumption;
       match goal with |- RD _ _ _ _ (enc _ _ _ _ ?v) _ _ =>
         replace (enc L envW c tW v) with (e_base L c tW v)
           by (destruct tW; try reflexivity; discriminate Hb);
         replace (decodeValue D (cread_struct D envR dfuel F) F tW)
           with (decode_base D tW)
           by (destruct tW; try reflexivity; discriminate Hb)
       end;
       apply (Rd_ext _ _ _ _ _ (read_base (proto_of D) tW));
         [intros; apply read_base_of; assumption|];
       apply (Rd_weak _ _ (okT L));
         [| destruct tW; try discriminate Hb; cbn; auto];
       apply Rd_D; apply (r_base _ _ _ L); auto;
       destruct tW; try discriminate Hwf; exact Hpos.
  - destruct tW as [| | | | | | | | |a| | |]; try discriminate Hwf.
    destruct tR as [| | | | | | | | |b| | |]; try discriminate Hcmp.
    cbn [compat] in Hcmp.
    cbn [wfd] in Hwf. apply andb_prop in Hwf as [Hn Hl]. cbn [rpos tailQ] in *.
    rewrite enc_list in *. unfold len_le in Hn. cbn [decodeValue].
    rewrite app_length in HF. apply (Rd_weak _ _ anyT); [|intros; exact I].
    assert (Hlp := p_L _ _ _ L c Hpos).
    pose proof (enc_elems_count L envW a l c _ Hlp Hl).
    cbn [drop_within] in Hdr. rewrite forallb_forall in Hdr.
    rewrite Forall_forall in H.
    assert (Hsd := sdepth_list l (sdepth (VList l)) (le_n _)).
    rewrite Forall_forall in Hsd.
    eapply Rd_bind; [apply Rd_D, (r_lbeg _ _ _ L); [exact Hpos|lia]|intros; apply elems_start; assumption|].
    cbn beta iota.
    apply Rd_test;
      [rewrite (compat_code R a b Hcmp), Z.eqb_refl; apply andb_false_r|].
    apply loop_elems with
      (h := fun acc x => acc ++ [proj envW envR a b x]) (F := F);
      auto; try lia.
    + intros x Hx e acc He Hle.
      apply (Rd_map (rrep L) _ _ _ _ _ _ _ (fun v => acc ++ [v])).
      apply (tailQ_weak L a). rewrite forallb_forall in Hl.
      pose proof (Hsd x Hx). apply (H x Hx) with (kd := kd); auto; try lia.
      apply rpos_epos; assumption.
    + intros e' He'. rewrite fold_snoc. cbn [app proj].
      apply Rd_end.
      apply Rd_D. exact (r_lend _ _ _ L c e' Hpos He').
  - destruct tW as [| | | | | | | | | |a| |]; try discriminate Hwf.
    destruct tR as [| | | | | | | | | |b| |]; try discriminate Hcmp.
    cbn [compat] in Hcmp.
    cbn [wfd] in Hwf. apply andb_prop in Hwf as [Hn Hl].
    apply andb_prop in Hn as [Hn Hnd]. apply andb_prop in Hn as [Hn Hh].
    assert (Hba := hashable_base _ Hh).
    assert (a = b) by (apply (compat_base R); assumption). subst b.
    assert (Hproj : map (proj envW envR a a) l = l).
    { rewrite <- (map_id l) at 2. apply map_ext. intros. apply proj_base.
      assumption. }
    cbn [rpos tailQ] in *.
    rewrite enc_set in *. unfold len_le in Hn. cbn [decodeValue].
    rewrite app_length in HF. apply (Rd_weak _ _ anyT); [|intros; exact I].
    assert (Hlp := p_L _ _ _ L c Hpos).
    pose proof (enc_elems_count L envW a l c _ Hlp Hl).
    rewrite Forall_forall in H.
    assert (Hsd := sdepth_set l (sdepth (VSet l)) (le_n _)).
    rewrite Forall_forall in Hsd.
    eapply Rd_bind; [apply Rd_D, (r_tbeg _ _ _ L); [exact Hpos|lia]|intros; apply elems_start; assumption|].
    cbn beta iota.
    apply Rd_test; [rewrite Z.eqb_refl; apply andb_false_r|].
    apply loop_elems with (h := fun acc x => acc ++ [x]) (F := F);
      auto; try lia.
    + intros x Hx e acc He Hle.
      apply (Rd_map (rrep L) _ _ _ _ _ _ _ (fun v => acc ++ [v])).
      apply (tailQ_weak L a). rewrite forallb_forall in Hl.
      pose proof (Hsd x Hx).
      rewrite <- (proj_base envW envR a a x) by assumption.
      rewrite (proj_base envW envR a a x) at 1 by assumption.
      apply (H x Hx) with (kd := kd); auto; try lia.
      * apply rpos_epos; assumption.
      * destruct a; try discriminate Hba; destruct x; reflexivity.
    + intros e' He'.
      rewrite (fold_snoc (fun x => x)), map_id, Hh. cbn [app orb].
      rewrite fold_set_add; [|assumption|intros; reflexivity].
      cbn [app proj]. rewrite Hproj.
      apply Rd_end.
      apply Rd_D. exact (r_tend _ _ _ L c e' Hpos He').
  - destruct tW as [| | | | | | | | | | |kt va|]; try discriminate Hwf.
    destruct tR as [| | | | | | | | | | |kb vb|]; try discriminate Hcmp.
    cbn [compat] in Hcmp. apply andb_prop in Hcmp as [Hck Hcv].
    cbn [wfd] in Hwf. apply andb_prop in Hwf as [Hn Hl].
    apply andb_prop in Hn as [Hn Hnd]. apply andb_prop in Hn as [Hn Hh].
    assert (Hba := hashable_base _ Hh).
    assert (kt = kb) by (apply (compat_base R); assumption). subst kb.
    cbn [rpos tailQ] in *.
    rewrite enc_map in *. unfold len_le in Hn. cbn [decodeValue].
    rewrite app_length in HF. apply (Rd_weak _ _ anyT); [|intros; exact I].
    assert (Hlp := p_M _ _ _ L c Hpos).
    pose proof (enc_items_count L envW kt va l c _ Hlp Hl).
    cbn [drop_within] in Hdr. rewrite forallb_forall in Hdr.
    rewrite Forall_forall in H.
    assert (Hsd := sdepth_map l (sdepth (VMap l)) (le_n _)).
    rewrite Forall_forall in Hsd.
    eapply Rd_bind; [apply Rd_map_begin, Rd_D, (r_mbeg _ _ _ L); [exact Hpos|lia]|intros; exact I|].
    assert (Hmr : exists a b, mret L (code kt) (code va) (Z.of_nat (length l))
              = (a, b, Z.of_nat (length l))
              /\ (Z.of_nat (length l) >? 0) && (negb (a =? code kt)
                    || negb (b =? code vb)) = false).
    { destruct l as [|kv l].
      - pose proof (mret_zero _ _ _ L (code kt) (code va)) as Hz.
        cbn [length]. change (Z.of_nat 0) with 0.
        destruct (mret L (code kt) (code va) 0) as [[a b] n]. cbn in Hz. subst n.
        exists a, b. split; reflexivity.
      - exists (code kt), (code va). split.
        + apply (mret_pos _ _ _ L). cbn [length]. lia.
        + rewrite (compat_code R va vb Hcv), !Z.eqb_refl. apply andb_false_r. }
    destruct Hmr as (ka' & va' & -> & Htst).
    cbn beta iota. apply Rd_test; [exact Htst|].
    set (g := fun kv : value * value =>
                match kv with
                | (k, x) => (proj envW envR kt kt k, proj envW envR va vb x)
                end).
    apply loop_items with
      (h := fun acc kv => dict_set acc (fst (g kv)) (snd (g kv))) (F := F);
      auto; try lia.
    + intros [k x] Hx c' e acc He Hle1 Hle2. cbn [fst snd] in *.
      rewrite forallb_forall in Hl.
      specialize (Hl _ Hx). specialize (H _ Hx). specialize (Hsd _ Hx).
      specialize (Hdr _ Hx). cbn [fst snd] in *.
      apply andb_prop in Hl as [Hlk Hlx]. destruct H as [IHk IHx].
      destruct Hsd as [Hdk Hsx].
      eapply Rd_bind with (v := proj envW envR kt kt k).
      * apply (tailQ_weak L kt). apply IHk with (kd := kd); auto; try lia.
        -- apply rpos_epos. eapply p_Mk; eauto.
        -- destruct kt; try discriminate Hba; destruct k; reflexivity.
      * intros t _. apply enc_start; auto. eapply p_Mk; eauto.
      * rewrite Hh. cbn [g fst snd].
        apply (Rd_map (rrep L) _ _ _ _ _ _ _
                 (fun v => dict_set acc (proj envW envR kt kt k) v)).
        apply (tailQ_weak L va). apply IHx with (kd := kd); auto; try lia.
        apply rpos_epos. eapply p_Mv; eauto.
    + intros e' He'.
      rewrite fold_dict_set; auto.
      2:{ intros [k x] _. cbn [g fst]. apply proj_base. assumption. }
      cbn [app proj]. fold g.
      apply Rd_end.
      apply Rd_D. exact (r_mend _ _ _ L c e' Hpos He').
  - destruct tW as [| | | | | | | | | | | |n']; try discriminate Hwf.
    destruct tR as [| | | | | | | | | | | |m]; try discriminate Hcmp.
    rewrite wf_struct in Hwf. apply andb_prop in Hwf as [Hn Hf].
    apply Nat.eqb_eq in Hn. subst n'. cbn [rpos tailQ compat] in *.
    destruct (HR n m Hcmp) as (dsW & dsR & EW & ER & Hcf).
    rewrite EW in Hf. destruct (HenvW _ _ EW) as [HndW HidW].
    assert (HsR : sorted_ids dsR) by exact (HenvR _ _ ER).
    assert (HndR : NoDup (map f_id dsR)) by (apply (id16_table _ HenvR _ _ ER)).
    rewrite (enc_struct L envW c n n fs dsW EW) in *. rewrite app_length in HF.
    rewrite (within_struct _ _ _ _ _ dsW dsR EW ER) in Hdr.
    rewrite (proj_struct _ _ _ _ _ _ dsW dsR EW ER).
    change (decodeValue D (cread_struct D envR dfuel F) F (TStruct m))
      with (cread_struct D envR dfuel F m).
    assert (Hs1 : (1 <= sdepth (VStruct n fs))%nat) by (cbn [sdepth]; lia).
    destruct dfuel as [|dfuel]; [lia|]. cbn [cread_struct]. rewrite ER.
    assert (Hsd := sdepth_struct n fs (sdepth (VStruct n fs) - 1)).
    specialize (Hsd ltac:(lia)). rewrite Forall_forall in Hsd.
    rewrite Forall_forall in H.
    apply Rd_guard; [lia|]. apply Rd_scope.
    eapply Rd_bind; [apply Rd_D, (r_sbeg _ _ _ L); exact Hpos|intros; exact I|].
    rewrite <- (map_combine_fresh
                  (fun d a => look envW envR d a fs dsW) dsR).
    rewrite <- upd_fields_look by (auto; unfold fresh; apply map_length).
    apply (Rd_ext _ _ _ _ _
      (acc' <- cread_fields D F F (S dfuel)
                 (decodeValue D (cread_struct D envR dfuel F) F)
                 (thrift_spec dsR) (fresh dsR) ;;
       readStructEnd (proto_of D) ;;; ret (VStruct m acc'))).
    { intros s. unfold bind, ret.
      destruct (cread_fields _ _ _ _ _ _ _ s) as [[a|e|] s']; reflexivity. }
    apply (cread_fields_enc (d + 1) dsR
      (decodeValue D (cread_struct D envR dfuel F) F) (pred kd) (S dfuel)
      (fun acc => ret (VStruct m acc))); auto; try lia.
    + rewrite Forall_forall. intros [x|] Hx; [|exact I].
      specialize (H _ Hx). specialize (Hsd _ Hx). cbn beta iota in *.
      intros t tR' c' Hp Hw Hc' Hle Hdr'.
      apply H with (kd := pred kd); auto; lia.
    + apply (p_fS _ _ _ L); assumption.
Qed.

End Read.
End Gen.
