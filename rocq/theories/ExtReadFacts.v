(** The C decoder reads the published encodings. *)
From Coq Require Import ZArith List Bool Lia.
From Coq Require Import Init.Byte.
From Coq Require Import ZifyBool ZifyNat ZifyN.
From Verif Require Import Base Bytes Utf8 Utf8Facts Proto Spec Laws RoundTrip StructFacts
  SpecBinary SpecCompact Dynamic DynamicFacts DynamicRead SpecDynamic Ext ExtRead
  SpecExt ExtReadGen ExtReadBinary ExtReadCompact.
Import ListNotations.
Open Scope Z_scope.

Lemma fast_binary_read big sl cl SL CL envW envR R n m v tail :
  x_limits sl cl SL CL ->
  schema_ok envW -> table_schema envR -> compat_env envW envR R -> R n m = true ->
  wf envW SL CL (TStruct n) v = true -> (sdepth v <= 64)%nat ->
  drop_within envW envR 64 (TStruct n) (TStruct m) v = true ->
  fast_deserialize (dbinary big sl cl) tt envR m (sb_value envW (TStruct n) v ++ tail)
  = Ok (proj envW envR (TStruct n) (TStruct m) v, tail).
Proof.
  intros Hl HW HR HC Hnm Hwf Hd Hdr. unfold fast_deserialize.
  set (F := S (length (sb_value envW (TStruct n) v ++ tail))).
  assert (HF : (length (sb_value envW (TStruct n) v) <= F)%nat)
    by (unfold F; rewrite app_length; lia).
  assert (Ee : enc (xbinary_laws big sl cl SL CL Hl) envW tt (TStruct n) v
               = sb_value envW (TStruct n) v) by apply (enc_xbinary big sl cl SL CL Hl).
  destruct (cread_enc (xbinary_laws big sl cl SL CL Hl)
    (fun c t v _ => xs_base big sl cl SL CL Hl c t v)
    envW envR R HW HR HC F v 0 64 (TStruct n) (TStruct m) tt 66
    ltac:(lia) ltac:(lia) ltac:(lia) Hnm I Hwf ltac:(lia) ltac:(lia)
    (eq_ind_r (fun z => (length z <= F)%nat) HF Ee) Hdr tail I tt
    (sb_value envW (TStruct n) v ++ tail) []) as (x' & i' & E & H').
  { rewrite Ee. reflexivity. }
  cbn [decodeValue] in E. rewrite E. cbn [inp]. cbn in H'. subst. reflexivity.
Qed.

Lemma fast_compact_read big sl cl SL CL envW envR R n m v tail :
  x_limits sl cl SL CL ->
  schema_ok envW -> table_schema envR -> compat_env envW envR R -> R n m = true ->
  wf envW SL CL (TStruct n) v = true -> (sdepth v <= 64)%nat ->
  drop_within envW envR 64 (TStruct n) (TStruct m) v = true ->
  fast_deserialize (dcompact big sl cl) crd_init envR m
    (sc_value envW (TStruct n) v ++ tail)
  = Ok (proj envW envR (TStruct n) (TStruct m) v, tail).
Proof.
  intros Hl HW HR HC Hnm Hwf Hd Hdr. unfold fast_deserialize.
  set (F := S (length (sc_value envW (TStruct n) v ++ tail))).
  assert (HF : (length (sc_value envW (TStruct n) v) <= F)%nat)
    by (unfold F; rewrite app_length; lia).
  assert (Ee : enc (xcompact_laws big sl cl SL CL Hl) envW (mkxpos [] None) (TStruct n) v
               = sc_value envW (TStruct n) v)
    by (apply (enc_xcompact big sl cl SL CL Hl); reflexivity).
  destruct (cread_enc (xcompact_laws big sl cl SL CL Hl)
    (xsc_base big sl cl SL CL Hl)
    envW envR R HW HR HC F v 0 64 (TStruct n) (TStruct m) (mkxpos [] None) 66
    ltac:(lia) ltac:(lia) ltac:(lia) Hnm eq_refl Hwf ltac:(lia) ltac:(lia)
    (eq_ind_r (fun z => (length z <= F)%nat) HF Ee) Hdr tail I crd_init
    (sc_value envW (TStruct n) v ++ tail) []) as (x' & i' & E & H').
  { rewrite Ee. repeat split. }
  cbn [decodeValue] in E. rewrite E. cbn [inp]. cbn in H'.
  destruct H' as (-> & _). reflexivity.
Qed.

(** A reader with the writer's schema skips nothing. *)
Lemma drop_within_same {D I} env v : schema_okd I env -> forall k t SL CL,
  wfd D env SL CL t v = true -> drop_within env env k t t v = true.
Proof.
  intros Hok. induction v using value_rect'; intros k' t SL CL Hwf;
    destruct t; try reflexivity; try discriminate Hwf; cbn [wfd] in Hwf.
  - cbn [drop_within]. apply andb_prop in Hwf as [_ Hwf].
    apply forallb_forall. intros x Hx. rewrite Forall_forall in H.
    rewrite forallb_forall in Hwf. eapply H; eauto.
  - cbn [drop_within]. apply andb_prop in Hwf as [_ Hwf].
    apply forallb_forall. intros [a x] Hx. rewrite Forall_forall in H.
    rewrite forallb_forall in Hwf. specialize (Hwf _ Hx). cbn in Hwf.
    apply andb_prop in Hwf as [_ Hwf].
    destruct (H _ Hx) as [_ Hs]. eapply Hs; eauto.
  - apply andb_prop in Hwf as [Hn Hwf]. apply Nat.eqb_eq in Hn. subst n0.
    cbn [drop_within]. destruct (nth_error env n) as [ds|] eqn:E; [|reflexivity].
    destruct (Hok _ _ E) as [Hnd _].
    assert (G : forall fs ds', incl ds' ds ->
      Forall (fun f => match f with Some x => forall k t SL CL,
         wfd D env SL CL t x = true -> drop_within env env k t t x = true
         | None => True end) fs ->
      wf_fields (D := D) env SL CL fs ds' = true ->
      (fix go fs ds0 :=
             match fs, ds0 with
             | f :: fs', d :: ds' =>
                 match f with
                 | Some x =>
                     match find (fun dR => (f_id d =? f_id dR)
                                  && (code (f_ty d) =? code (f_ty dR))) ds with
                     | Some dR => drop_within env env (pred k') (f_ty d) (f_ty dR) x
                     | None => (vdepth x <=? pred k')%nat
                     end
                 | None => true
                 end && go fs' ds'
             | _, _ => true
             end) fs ds' = true).
    { clear fs H Hwf. induction fs as [|f fs IH]; intros [|d ds'] Hi Hf Hw;
        try reflexivity. cbn [wf_fields] in Hw. apply andb_prop in Hw as [H1 H2].
      inversion Hf as [|? ? Hf1 Hf2]; subst.
      rewrite (IH ds'); auto. 2:{ intros a Ha. apply Hi. right. exact Ha. }
      rewrite andb_true_r. destruct f as [x|]; [|reflexivity].
      destruct (find _ ds) as [dR|] eqn:Ef.
      - apply find_some in Ef as [Hin Ef]. apply andb_prop in Ef as [Ei _].
        apply Z.eqb_eq in Ei.
        rewrite <- (NoDup_f_id ds d dR Hnd (Hi d (or_introl eq_refl)) Hin Ei).
        eapply Hf1; eassumption.
      - exfalso. pose proof (find_none _ _ Ef d (Hi d (or_introl eq_refl))) as Hf0.
        cbn beta in Hf0. rewrite !Z.eqb_refl in Hf0. discriminate. }
    apply G; [apply incl_refl|exact H|].
    pose proof (wf_struct (D := D) env SL CL n n fs) as W. cbn [wfd] in W.
    rewrite Nat.eqb_refl, E in W. cbn [andb] in W. rewrite <- W. exact Hwf.
Qed.

(** Values of little depth can always be skipped. *)
Lemma drop_within_depth envW envR v : forall k tW tR,
  (vdepth v <= k)%nat -> drop_within envW envR k tW tR v = true.
Proof.
  induction v using value_rect'; intros k' tW tR Hk;
    destruct tW, tR; try reflexivity.
  - cbn [drop_within vdepth] in *. apply forallb_forall. intros x Hx.
    rewrite Forall_forall in H. apply H; [assumption|].
    clear H. induction l as [|y l IH]; [destruct Hx|]. cbn [fold_right] in Hk.
    destruct Hx as [->|Hx]; [lia|]. apply IH; [lia|assumption].
  - cbn [drop_within vdepth] in *. apply forallb_forall. intros [a x] Hx.
    rewrite Forall_forall in H. destruct (H _ Hx) as [_ Hs]. apply Hs.
    clear H Hs. induction l as [|[b y] l IH]; [destruct Hx|]. cbn [fold_right snd] in *.
    destruct Hx as [E|Hx]; [injection E as -> ->; lia|]. apply IH; [lia|assumption].
  - cbn [drop_within vdepth] in *. destruct (nth_error envW n) as [dsW|]; [|reflexivity].
    destruct (nth_error envR n1) as [dsR|]; [|reflexivity].
    revert dsW. induction H as [|f fs Hf _ IH]; intros [|d dsW]; try reflexivity.
    cbn [fold_right] in Hk. rewrite IH by (destruct f; lia).
    rewrite andb_true_r. destruct f as [x|]; [|reflexivity].
    destruct (find _ dsR) as [dR|]; [|lia]. apply Hf. lia.
Qed.
