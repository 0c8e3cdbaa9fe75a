(** The lemmas of RelayFacts.v applied to the binary and compact protocols. *)
From Coq Require Import ZArith List Bool Lia ZifyBool ZifyNat.
From Coq Require Import Init.Byte.
From Verif Require Import Base Bytes Utf8 Utf8Facts Proto Spec RoundTrip StructFacts PostFacts
  Closure FrameFacts TermFacts Binary BinaryLaws Compact CompactLaws InstFacts SafeInst
  RelayFacts.
Import ListNotations.
Open Scope Z_scope.

Lemma base_ok_mono D SL SL' t v : SL <= SL' -> base_okd D SL t v = true ->
  base_okd D SL' t v = true.
Proof.
  intros H. destruct t, v; cbn [base_okd]; auto.
  - destruct (utf8_encode s); [unfold len_le; lia|auto].
  - unfold len_le; lia.
Qed.

Lemma c_base_ok_mono SL SL' t v : SL <= SL' -> c_base_ok SL t v = true ->
  c_base_ok SL' t v = true.
Proof.
  intros H. destruct t, v; cbn [c_base_ok]; auto; apply base_ok_mono; exact H.
Qed.

Lemma base_c_base SL t v : base_ok SL t v = true -> c_base_ok SL t v = true.
Proof. destruct t, v; cbn [base_okd c_base_ok]; auto; unfold between; lia. Qed.

Lemma defaults_sound (B : ty -> value -> bool) env SL CL : defaults_ok env SL CL = true ->
  (forall t v, base_ok SL t v = true -> B t v = true) ->
  forall n ds d x, nth_error env n = Some ds -> In d ds -> f_def d = Some x ->
  wfb B (relax env) CL (f_ty d) x = true
  /\ no_missing_default env (f_ty d) x = true /\ sdepth x = O.
Proof.
  intros H HB n ds d x E Hd Hx. unfold defaults_ok in H. rewrite forallb_forall in H.
  specialize (H ds (nth_error_In _ _ E)). rewrite forallb_forall in H.
  specialize (H d Hd). rewrite Hx in H. apply andb_prop in H as [H1 H2].
  apply PeanoNat.Nat.eqb_eq in H2.
  split; [|split; [|exact H2]].
  - apply wfb_relax. rewrite <- wfb_wf in H1. revert H1. apply wfb_imp; [exact HB|].
    intros k ks Ek. exists ks. split; [exact Ek|split; [reflexivity|]].
    clear. induction ks; constructor; auto.
  - clear - H2 H1. revert H1. generalize (f_ty d). induction x using value_rect';
      intros t Hw; destruct t; try reflexivity; cbn [no_missing_default].
    + cbn [wfd sdepth] in *. apply andb_prop in Hw as [_ Hw].
      induction H as [|a l Ha Hl IH]; cbn [forallb fold_right] in *; [reflexivity|].
      apply andb_prop in Hw as [Hw1 Hw2].
      rewrite Ha, IH by (auto; lia). reflexivity.
    + cbn [wfd sdepth] in *. apply andb_prop in Hw as [_ Hw].
      induction H as [|[a b] l [Ha Hb] Hl IH]; cbn [forallb fold_right fst snd] in *;
        [reflexivity|].
      apply andb_prop in Hw as [Hw1 Hw2]. apply andb_prop in Hw1 as [_ Hw1].
      rewrite Hb, IH by (auto; lia). reflexivity.
    + cbn [sdepth] in H2. discriminate.
Qed.

Lemma base_flat (B : ty -> value -> bool) SL env CL :
  (forall t v, B t v = true -> c_base_ok SL t v = true) ->
  forall t v, base_ty t = true -> B t v = true ->
  sdepth v = O /\ wfb B (relax env) CL t v = true.
Proof.
  intros H t v Ht Hv. pose proof (H t v Hv) as Hc.
  destruct t; try discriminate Ht; destruct v; try discriminate Hc; split; try reflexivity;
    exact Hv.
Qed.

(** A string or bytes object read is no longer than the input. *)
Lemma readAll_short X N d n : 0 <= n ->
  postd N d (fun b => Z.of_nat (length b) <= Z.of_nat N) (@readAll X n).
Proof.
  intros Hn s a s' _ HN E. pose proof (readAll_post X n Hn s a s' E) as Hl. cbn beta in Hl.
  pose proof (readAll_inv X n s) as H. rewrite E in H. lia.
Qed.

Lemma check_reads X l n : reads _ (@check_length X l n) (check_length l n).
Proof.
  unfold check_length. destruct (n <? 0); [apply (rc_raise _ (reads_closed X))|].
  destruct l as [l|]; [destruct (n >? l); [apply (rc_raise _ (reads_closed X))|]|];
    apply (rc_ret _ (reads_closed X)).
Qed.

Lemma sized_short X N d limit (m : M X Z) : reads _ m m ->
  postd N d (fun b => Z.of_nat (length b) <= Z.of_nat N)
    (size <- m ;; check_length limit size ;;; readAll size).
Proof.
  intros Hm. apply postd_then; [exact Hm|]. intros n.
  eapply postd_bind; [apply check_reads| |].
  - apply postd_post, (check_length_post _ limit n (Z.abs n)). lia.
  - cbn beta. intros _ Hn. apply readAll_short. lia.
Qed.

Definition is_text (t : ty) : bool := match t with TString | TBinary => true | _ => false end.

Lemma base_ok_other D SL SL' t v : is_text t = false ->
  base_okd D SL t v = base_okd D SL' t v.
Proof. destruct t; try discriminate; destruct v; reflexivity. Qed.

Lemma decode_short X N SL b : Z.of_nat (length b) <= SL ->
  forall d, postd N d (fun s => base_ok SL TString (VStr s) = true) (@decode_utf8 (st X) b).
Proof. intros H d. apply postd_post, decode_post, H. Qed.

Lemma b_readBinary_short cf N d :
  postd N d (fun b => Z.of_nat (length b) <= Z.of_nat N) (b_readBinary cf).
Proof. apply sized_short. exact (rr_i32 _ _ (binary_reads cf)). Qed.

Lemma base_ok_min a b t v : base_ok a t v = true -> base_ok b t v = true ->
  base_ok (Z.min a b) t v = true.
Proof.
  destruct t, v; cbn [base_okd]; auto.
  - destruct (utf8_encode s); [unfold len_le; lia|auto].
  - unfold len_le; lia.
Qed.

Lemma postd_and X A N d (Q R : A -> Prop) (m : M X A) : postd N d Q m -> postd N d R m ->
  postd N d (fun a => Q a /\ R a) m.
Proof.
  intros H1 H2 s a s' Hd HN E.
  split; [eapply H1|eapply H2]; eassumption.
Qed.

Lemma b_base_short cf N t d : base_ty t = true ->
  postd N d (fun v => base_ok (Z.min (b_slim cf) (Z.of_nat N)) t v = true)
    (read_base (binary cf) t).
Proof.
  intros Ht. eapply postd_mono with (P := fun v => base_ok (b_slim cf) t v = true
    /\ base_ok (Z.of_nat N) t v = true); [intros v []; apply base_ok_min; assumption|].
  apply postd_and; [apply postd_post, b_base_post, Ht|].
  destruct (is_text t) eqn:Et.
  - destruct t; try discriminate Et; cbn [read_base binary readString readBinary].
    + eapply postd_bind; [exact (rr_str _ _ (binary_reads cf))| |].
      * unfold b_readString.
        eapply postd_bind; [exact (rr_bin _ _ (binary_reads cf))|apply b_readBinary_short|].
        intros b Hb. apply decode_short, Hb.
      * cbn beta. intros s Hs. apply postd_post, post_ret, Hs.
    + eapply postd_bind; [exact (rr_bin _ _ (binary_reads cf))|apply b_readBinary_short|].
      cbn beta. intros b Hb. apply postd_post, post_ret. cbn [base_okd]. unfold len_le. lia.
  - apply postd_post. eapply post_mono; [|apply b_base_post, Ht].
    intros v H. rewrite <- (base_ok_other _ (b_slim cf)) by exact Et. exact H.
Qed.

Lemma c_base_ok_min a b t v : c_base_ok a t v = true -> c_base_ok b t v = true ->
  c_base_ok (Z.min a b) t v = true.
Proof. destruct t, v; cbn [c_base_ok]; auto; apply base_ok_min. Qed.

Lemma c_base_ok_other SL SL' t v : is_text t = false -> c_base_ok SL t v = c_base_ok SL' t v.
Proof. destruct t; try discriminate; destruct v; reflexivity. Qed.

Lemma c_readBinary_short cf N d :
  postd N d (fun b => Z.of_nat (length b) <= Z.of_nat N) (reader (c_readBinary_ cf)).
Proof.
  unfold reader. apply postd_then.
  { apply (rc_bind _ (reads_closed cst)); [apply get_px_reads|]. intros x.
    unfold assert_. destruct (existsb _ _);
      [apply (rc_ret _ (reads_closed cst))|apply (rc_raise _ (reads_closed cst))]. }
  intros _. apply sized_short. unfold c_readSize.
  apply (rc_bind _ (reads_closed cst)); [apply readVarint_reads|]. intros n.
  destruct (n <? 0); [apply (rc_raise _ (reads_closed cst))|apply (rc_ret _ (reads_closed cst))].
Qed.

Lemma c_base_short cf N t d : base_ty t = true ->
  postd N d (fun v => c_base_ok (Z.min (c_slim cf) (Z.of_nat N)) t v = true)
    (read_base (compact cf) t).
Proof.
  intros Ht. eapply postd_mono with (P := fun v => c_base_ok (c_slim cf) t v = true
    /\ c_base_ok (Z.of_nat N) t v = true); [intros v []; apply c_base_ok_min; assumption|].
  apply postd_and; [apply postd_post, c_base_post, Ht|].
  destruct (is_text t) eqn:Et.
  - destruct t; try discriminate Et; cbn [read_base compact readString readBinary].
    + eapply postd_bind; [exact (rr_str _ _ (compact_reads cf))| |].
      * unfold c_readString.
        eapply postd_bind; [exact (rr_bin _ _ (compact_reads cf))|apply c_readBinary_short|].
        intros b Hb. apply decode_short, Hb.
      * cbn beta. intros s Hs. apply postd_post, post_ret, Hs.
    + eapply postd_bind; [exact (rr_bin _ _ (compact_reads cf))|apply c_readBinary_short|].
      cbn beta. intros b Hb. apply postd_post, post_ret. cbn [base_okd c_base_ok].
      unfold len_le. lia.
  - apply postd_post. eapply post_mono; [|apply c_base_post, Ht].
    intros v H. rewrite <- (c_base_ok_other (c_slim cf)) by exact Et. exact H.
Qed.

(** * The objects returned *)

Lemma binary_typed cf SL CL env n buf v rest :
  schema_keyed env = true -> defaults_ok env SL CL = true ->
  Z.min (b_slim cf) (Z.of_nat (length buf)) <= SL ->
  Z.min (b_clim cf) (Z.of_nat (length buf) + 1) <= CL ->
  deserialize (binary cf) tt env n buf = Ok (v, rest) ->
  wf (relax env) SL CL (TStruct n) v = true
  /\ no_missing_default env (TStruct n) v = true /\ (sdepth v <= 64)%nat.
Proof.
  intros Hk Hd HS HC E. rewrite <- wfb_wf.
  eapply (deserialize_sound (binary cf) (binary_reads cf) env (base_ok SL) CL (b_clim cf)
    (length buf)); try exact E; try exact Hk.
  - intros t Ht d. eapply postd_mono; [|apply b_base_short, Ht]. intros a.
    apply base_ok_mono, HS.
  - apply (base_flat _ SL). apply base_c_base.
  - apply b_list_post.
  - apply b_list_post.
  - apply b_map_post.
  - apply (defaults_sound _ env SL CL Hd). auto.
  - lia.
  - intros k. lia.
Qed.

Lemma compact_typed cf SL CL env n buf v rest x :
  schema_keyed env = true -> defaults_ok env SL CL = true ->
  Z.min (c_slim cf) (Z.of_nat (length buf)) <= SL ->
  Z.min (c_clim cf) (Z.of_nat (length buf) + 1) <= CL ->
  deserialize (compact cf) x env n buf = Ok (v, rest) ->
  wfb (c_base_ok SL) (relax env) CL (TStruct n) v = true
  /\ no_missing_default env (TStruct n) v = true /\ (sdepth v <= 64)%nat.
Proof.
  intros Hk Hd HS HC E.
  eapply (deserialize_sound (compact cf) (compact_reads cf) env (c_base_ok SL) CL (c_clim cf)
    (length buf)); try exact E; try exact Hk.
  - intros t Ht d. eapply postd_mono; [|apply c_base_short, Ht]. intros a.
    apply c_base_ok_mono, HS.
  - apply (base_flat _ SL). auto.
  - apply c_list_post.
  - apply c_list_post.
  - apply c_map_post.
  - apply (defaults_sound _ env SL CL Hd). apply base_c_base.
  - lia.
  - intros k. lia.
Qed.

Lemma fits_mono (b b' : ty -> value -> bool) env :
  (forall t v, b t v = true -> b' t v = true) ->
  forall v t, fits env b t v = true -> fits env b' t v = true.
Proof.
  intros HB. induction v using value_rect'; intros t E.
  1-6: destruct t; cbn [fits] in *; auto.
  - destruct t; cbn [fits] in *; auto.
    revert E. apply forallb_imp. eapply Forall_impl; [|exact H]. auto.
  - destruct t; cbn [fits] in *; auto.
    revert E. apply forallb_imp. eapply Forall_impl; [|exact H]. auto.
  - destruct t; cbn [fits] in *; auto.
    revert E. apply forallb_imp. eapply Forall_impl; [|exact H].
    intros [k x] [Hk Hx] E. cbn [fst snd] in *. apply andb_prop in E as [Ea Eb].
    rewrite Hk, Hx by assumption. reflexivity.
  - destruct t; cbn [fits] in *; auto.
    destruct (nth_error env n) as [ds|]; [|discriminate].
    revert ds E. induction H as [|f fs Hf Hfs IH]; intros [|d ds] E;
      try discriminate; try reflexivity.
    apply andb_prop in E as [Ea Eb]. rewrite (IH ds Eb), andb_true_r.
    destruct f as [x|]; [apply Hf, Ea|exact Ea].
Qed.

(** An integer of the declared width. *)
Lemma c_base_writable SL t v : c_base_ok SL t v = true -> writable_base t v = true ->
  base_ok SL t v = true.
Proof. destruct t, v; cbn [c_base_ok writable_base base_okd]; auto. Qed.
