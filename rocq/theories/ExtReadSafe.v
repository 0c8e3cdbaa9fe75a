(** The C decoder on arbitrary input: it terminates, consumes a prefix of its
    input, does not read outside it, and what it returns has the declared
    types. *)
From Coq Require Import ZArith List Bool Lia.
From Coq Require Import Init.Byte.
From Coq Require Import ZifyBool ZifyNat ZifyN.
From Verif Require Import Base Bytes Utf8 Proto Spec RoundTrip Dynamic PostFacts Ext ExtRead.
Import ListNotations.
Open Scope Z_scope.

(** Which base types may occur in a type. *)
Fixpoint made_of (bt : ty -> bool) (t : ty) : bool :=
  match t with
  | TList e | TSet e => made_of bt e
  | TMap k v => made_of bt k && made_of bt v
  | TStruct _ => true
  | _ => bt t
  end.
Definition env_made_of (bt : ty -> bool) (env : schema) : bool :=
  forallb (fun ds => forallb (fun d => made_of bt (f_ty d)) ds) env.

Section Safe.
Context {X : Type} (okx : exn -> Prop).

(** [safe F d I k Q m]: started at depth [d] with fewer than [F] bytes of
    input and an object state satisfying [I], [m] does not diverge and raises
    only exceptions in [okx]; on success it has consumed at least [k] bytes
    from the front of the input, the depth is [d] again and result and object
    state satisfy [Q]. *)
Definition safe {A} (F : nat) (d : Z) (I : X -> Prop) (k : nat)
    (Q : A -> X -> Prop) (m : M X A) : Prop :=
  forall s, I (px s) -> (length (inp s) < F)%nat -> depth s = d ->
    match m s with
    | (Ok a, s') => Q a (px s') /\ depth s' = d
                    /\ exists pre, inp s = pre ++ inp s' /\ (k <= length pre)%nat
    | (Raise e, _) => okx e
    | (Diverge, _) => False
    end.

Lemma safe_ret {A} F d (I : X -> Prop) (Q : A -> X -> Prop) (a : A) :
  (forall x, I x -> Q a x) -> safe F d I 0 Q (ret a).
Proof.
  intros H s Hi _ Hd. cbn. split; [auto|]. split; [auto|]. exists []. split; auto.
Qed.

Lemma safe_raise {A} F d I k Q e : okx e -> @safe A F d I k Q (raise e).
Proof. intros H s _ _ _. exact H. Qed.

Lemma safe_weak {A} F d (I I' : X -> Prop) k k' (Q Q' : A -> X -> Prop) m :
  safe F d I k Q m -> (forall x, I' x -> I x) -> (k' <= k)%nat ->
  (forall a x, Q a x -> Q' a x) -> safe F d I' k' Q' m.
Proof.
  intros H Hi Hk Hq s Hs Hl Hd. specialize (H s (Hi _ Hs) Hl Hd).
  destruct (m s) as [[a|e|] s']; auto. destruct H as (H1 & H2 & pre & H3 & H4).
  split; [auto|]. split; [auto|]. exists pre. split; [auto|lia].
Qed.

Lemma safe_bind {A B} F d (I : X -> Prop) k1 k2 (Q1 : A -> X -> Prop)
    (Q2 : B -> X -> Prop) (m : M X A) (f : A -> M X B) :
  safe F d I k1 Q1 m -> (forall a, safe F d (Q1 a) k2 Q2 (f a)) ->
  safe F d I (k1 + k2) Q2 (bind m f).
Proof.
  intros Hm Hf s Hi Hl Hd. unfold bind. specialize (Hm s Hi Hl Hd).
  destruct (m s) as [[a|e|] s1]; auto. destruct Hm as (H1 & H2 & p & H3 & H4).
  assert (Hl1 : (length (inp s1) < F)%nat) by (rewrite H3, app_length in Hl; lia).
  specialize (Hf a s1 H1 Hl1 H2).
  destruct (f a s1) as [[b|e|] s2]; auto. destruct Hf as (K1 & K2 & q & K3 & K4).
  split; [auto|]. split; [auto|]. exists (p ++ q).
  rewrite H3, K3, app_assoc, app_length. split; [reflexivity|lia].
Qed.

Lemma safe_seq {A B} F d (I : X -> Prop) k1 k2 (Q1 : A -> X -> Prop)
    (Q2 : B -> X -> Prop) (m : M X A) (f : M X B) :
  safe F d I k1 Q1 m -> safe F d (fun x => exists a, Q1 a x) k2 Q2 f ->
  safe F d I (k1 + k2) Q2 (m ;;; f).
Proof.
  intros Hm Hf. eapply safe_bind; [exact Hm|]. intros a.
  eapply safe_weak; [exact Hf|cbn; eauto|lia|auto].
Qed.

Lemma safe_guard {A} F d I k (Q : A -> X -> Prop) m : okx (EProtocol TP_DEPTH_LIMIT) ->
  (d + 1 <= 64 -> safe F (d + 1) I k Q m) -> safe F d I k Q (recursion_guard m).
Proof.
  intros Ho H s Hi Hl Hd. unfold recursion_guard, try_finally. rewrite Hd.
  destruct (d + 1 >? 64) eqn:E; [exact Ho|].
  specialize (H ltac:(lia) (mkst (px s) (inp s) (out s) (d + 1)) Hi Hl eq_refl).
  destruct (m _) as [[a|e|] s1]; auto. destruct H as (H1 & H2 & H3).
  cbn [px inp depth] in *. split; [auto|]. split; [lia|auto].
Qed.

Lemma safe_repeat {A} F d (J : A -> X -> Prop) (f : A -> M X A) :
  (forall a, safe F d (J a) 1 J (f a)) ->
  forall fuel n acc s, J acc (px s) -> (length (inp s) < F)%nat -> depth s = d ->
    (length (inp s) < fuel)%nat ->
    match repeatM fuel n f acc s with
    | (Ok a, s') => J a (px s') /\ depth s' = d
                    /\ exists pre, inp s = pre ++ inp s' /\ (0 <= length pre)%nat
    | (Raise e, _) => okx e
    | (Diverge, _) => False
    end.
Proof.
  intros Hf. induction fuel as [|fuel IH]; intros n acc s Hj Hl Hd Hu; [lia|].
  cbn [repeatM]. destruct (n <=? 0).
  - cbn. split; [auto|]. split; [auto|]. exists []. split; auto.
  - unfold bind. specialize (Hf acc s Hj Hl Hd).
    destruct (f acc s) as [[a|e|] s1]; auto. destruct Hf as (H1 & H2 & p & H3 & H4).
    rewrite H3, app_length in Hl, Hu.
    specialize (IH (n - 1) a s1 H1 ltac:(lia) H2 ltac:(lia)).
    destruct (repeatM fuel (n - 1) f a s1) as [[b|e|] s2]; auto.
    destruct IH as (K1 & K2 & q & K3 & K4). split; [auto|]. split; [auto|].
    exists (p ++ q). rewrite H3, K3, app_assoc. split; [reflexivity|lia].
Qed.

Lemma safe_repeatM {A} F d (J : A -> X -> Prop) (f : A -> M X A) n acc :
  (forall a, safe F d (J a) 1 J (f a)) -> safe F d (J acc) 0 J (repeatM F n f acc).
Proof.
  intros Hf s Hj Hl Hd. exact (safe_repeat F d J f Hf F n acc s Hj Hl Hd Hl).
Qed.

(** * The decoder over safe primitives

    [cl]: no boolean has been read ahead. *)
Variable D : dimpl X.
Variable cl : X -> Prop.
Variable bt : ty -> bool.
Hypothesis Hdepth : okx (EProtocol TP_DEPTH_LIMIT).
Hypothesis Htype : okx ETypeError.

Definition at_type (type : Z) (x : X) : Prop := cl x \/ type = T_BOOL.

Hypothesis h_read : forall F d t, base_ty t = true -> bt t = true ->
  safe F d cl 1 (fun _ => cl) (decode_base D t).
Hypothesis h_bool : forall F d, safe F d (fun _ => True) 0 (fun _ => cl) (d_readBool D).
Hypothesis h_skip : forall F d t, base_ty t = true ->
  safe F d cl 1 (fun _ => cl) (match t with
    | TBool => d_skipBool D | TByte => d_skipByte D | TI16 => d_skipI16 D
    | TI32 => d_skipI32 D | TI64 => d_skipI64 D | TDouble => d_skipDouble D
    | TUuid => d_skipUuid D | _ => d_skipString D end).
Hypothesis h_sbool : forall F d, safe F d (fun _ => True) 0 (fun _ => cl) (d_skipBool D).
Hypothesis h_list : forall F d, safe F d cl 1 (fun _ => cl) (d_readListBegin D).
Hypothesis h_map : forall F d, safe F d cl 1 (fun _ => cl) (d_readMapBegin D).
Hypothesis h_sbeg : forall F d, safe F d cl 0 (fun _ => cl) (d_readStructBegin D).
Hypothesis h_send : forall s, inp (d_readStructEnd D s) = inp s
  /\ depth (d_readStructEnd D s) = depth s /\ (cl (px s) -> cl (px (d_readStructEnd D s))).
Hypothesis h_field : forall F d, safe F d cl 1
  (fun p x => if fst p =? T_STOP then cl x else at_type (fst p) x) (d_readFieldBegin D).

Lemma safe_scope {A} F d k (m : M X A) :
  safe F d cl k (fun _ => cl) m -> safe F d cl k (fun _ => cl) (read_scope D m).
Proof.
  intros H. unfold read_scope. change k with (0 + k)%nat.
  eapply safe_seq; [apply h_sbeg|].
  intros s [_ Hi] Hl Hd. unfold try_finally. specialize (H s Hi Hl Hd).
  destruct (m s) as [[a|e|] s1]; auto. destruct H as (H1 & H2 & H3).
  destruct (h_send s1) as (E1 & E2 & E3). rewrite E1, E2. auto.
Qed.

(** A value reader for wire type [type]. *)
Definition vsafe {A} F d type (m : M X A) : Prop :=
  safe F d cl 1 (fun _ => cl) m
  /\ safe F d (at_type type) 0 (fun _ => cl) m.

Lemma vsafe_not_bool {A} F d type (m : M X A) : type <> T_BOOL ->
  safe F d cl 1 (fun _ => cl) m -> vsafe F d type m.
Proof.
  intros Hb H. split; [exact H|].
  eapply safe_weak; [exact H| |lia|cbn; auto]. intros x [Hx|Hx]; [exact Hx|contradiction].
Qed.

Lemma safe_le {A} F F' d I k (Q : A -> X -> Prop) m : (F' <= F)%nat ->
  safe F d I k Q m -> safe F' d I k Q m.
Proof. intros HF H s Hi Hl Hd. apply H; auto. lia. Qed.

Lemma cskip_fields_safe d sk F : (forall type, vsafe F d type (sk type)) ->
  forall fuel F', (F' <= fuel)%nat -> (F' <= F)%nat ->
  safe F' d cl 1 (fun _ => cl) (cskip_fields D fuel sk).
Proof.
  intros Hsk. induction fuel as [|fuel IH]; intros F' HF HF' s Hi Hl Hd; [lia|].
  cbn [cskip_fields]. unfold bind at 1. pose proof (h_field F' d s Hi Hl Hd) as H1.
  destruct (d_readFieldBegin D s) as [[[type tag]|e|] s1]; auto.
  destruct H1 as (Q1 & D1 & p & E1 & L1). cbn [fst] in Q1.
  destruct (type =? T_STOP).
  - cbn. split; [exact Q1|]. split; [exact D1|]. exists p. split; [exact E1|exact L1].
  - assert (HF1 : (length (inp s1) < F' - 1)%nat) by (rewrite E1, app_length in Hl; lia).
    assert (K : safe (F' - 1) d (at_type type) (0 + 1) (fun _ => cl)
              (sk type ;;; cskip_fields D fuel sk)).
    { eapply safe_seq; [apply (safe_le F); [lia|apply Hsk]|].
      eapply safe_weak; [apply IH; lia| |lia|cbn; auto].
      cbn. intros x [_ Hx]. exact Hx. }
    specialize (K s1 Q1 HF1 D1).
    destruct ((sk type ;;; cskip_fields D fuel sk) s1) as [[b|e|] s2]; auto.
    destruct K as (K1 & K2 & q & K3 & K4). split; [auto|]. split; [auto|].
    exists (p ++ q). rewrite E1, K3, app_assoc, app_length. split; [reflexivity|lia].
Qed.

Theorem cskip_safe F : forall dfuel d type, 0 <= d <= 64 ->
  65 <= d + Z.of_nat dfuel -> vsafe F d type (cskip D F dfuel type).
Proof.
  induction dfuel as [|k IH]; intros d type Hd Hk; [lia|]. cbn [cskip].
  assert (G : forall m : M X unit, (d + 1 <= 64 -> vsafe F (d + 1) type m) ->
            vsafe F d type (recursion_guard m)).
  { intros m H. split; apply safe_guard; try assumption; intros Hd'; apply H; assumption. }
  apply G. intros Hd'. clear G.
  assert (SB : forall t, base_ty t = true -> type <> T_BOOL ->
    vsafe F (d + 1) type (match t with
    | TBool => d_skipBool D | TByte => d_skipByte D | TI16 => d_skipI16 D
    | TI32 => d_skipI32 D | TI64 => d_skipI64 D | TDouble => d_skipDouble D
    | TUuid => d_skipUuid D | _ => d_skipString D end)).
  { intros t Hb Hn. apply vsafe_not_bool; [exact Hn|]. apply (h_skip F (d + 1) t Hb). }
  destruct (type =? T_BOOL) eqn:E0.
  { split; [apply (h_skip F (d + 1) TBool eq_refl)|].
    eapply safe_weak; [apply h_sbool|cbn; auto|lia|cbn; auto]. }
  assert (Hn : type <> T_BOOL) by lia.
  destruct (type =? T_BYTE); [exact (SB TByte eq_refl Hn)|].
  destruct (type =? T_I16); [exact (SB TI16 eq_refl Hn)|].
  destruct (type =? T_I32); [exact (SB TI32 eq_refl Hn)|].
  destruct (type =? T_I64); [exact (SB TI64 eq_refl Hn)|].
  destruct (type =? T_DOUBLE); [exact (SB TDouble eq_refl Hn)|].
  destruct (type =? T_STRING); [exact (SB TString eq_refl Hn)|].
  apply vsafe_not_bool; [exact Hn|].
  destruct ((type =? T_LIST) || (type =? T_SET)).
  { change 1%nat with (1 + 0)%nat. eapply safe_bind; [apply h_list|]. intros [et n].
    apply (safe_repeatM F (d + 1) (fun _ : unit => cl)). intros _. apply IH; lia. }
  destruct (type =? T_MAP).
  { change 1%nat with (1 + 0)%nat. eapply safe_bind; [apply h_map|]. intros [[kt vt] n].
    apply (safe_repeatM F (d + 1) (fun _ : unit => cl)). intros _.
    change 1%nat with (1 + 0)%nat. eapply safe_seq; [exact (proj1 (IH (d + 1) kt ltac:(lia) ltac:(lia)))|].
    eapply safe_weak; [exact (proj1 (IH (d + 1) vt ltac:(lia) ltac:(lia)))| |lia|cbn; auto].
    intros x [_ Hx]. exact Hx. }
  destruct (type =? T_STRUCT).
  { apply safe_scope, (cskip_fields_safe (d + 1) _ F); [|lia|lia].
    intros t. apply IH; lia. }
  destruct (type =? T_UUID); [|apply safe_raise, Htype].
  apply (h_skip F (d + 1) TUuid eq_refl).
Qed.

(** * Values *)

Lemma safe_check F d (b : bool) :
  safe F d cl 0 (fun _ : unit => cl) (if b then raise ETypeError else ret tt).
Proof. destruct b; [apply safe_raise, Htype|apply safe_ret; auto]. Qed.

Lemma decodeValue_safe F d rs : (forall n, safe F d cl 1 (fun _ => cl) (rs n)) ->
  forall t, made_of bt t = true -> vsafe F d (code t) (decodeValue D rs F t).
Proof.
  intros Hrs. induction t; intros Ht; cbn [made_of] in Ht;
    try (apply vsafe_not_bool; [discriminate|]);
    try (apply h_read; [reflexivity|assumption]).
  - split; [apply h_read; [reflexivity|assumption]|].
    cbn [decodeValue decode_base]. change O with (0 + 0)%nat.
    eapply safe_bind with (Q1 := fun _ => cl); [eapply safe_weak; [apply h_bool|cbn; auto|lia|cbn; auto]|].
    intros b. apply safe_ret. auto.
  - cbn [decodeValue]. change 1%nat with (1 + (0 + (0 + 0)))%nat.
    eapply safe_bind; [apply h_list|]. intros [et n].
    eapply safe_seq; [apply safe_check|].
    eapply safe_bind with (Q1 := fun _ => cl); [|intros l; apply safe_ret; auto].
    eapply safe_weak; [apply (safe_repeatM F d (fun _ => cl))| |lia|cbn; auto].
    + intros acc. change 1%nat with (1 + 0)%nat.
      eapply safe_bind; [exact (proj1 (IHt Ht))|]. intros v. apply safe_ret. auto.
    + intros x [_ Hx]. exact Hx.
  - cbn [decodeValue]. change 1%nat with (1 + (0 + (0 + 0)))%nat.
    eapply safe_bind; [apply h_list|]. intros [et n].
    eapply safe_seq; [apply safe_check|].
    eapply safe_bind with (Q1 := fun _ => cl).
    2:{ intros l. destruct (hashable t || _); [apply safe_ret; auto|apply safe_raise, Htype]. }
    eapply safe_weak; [apply (safe_repeatM F d (fun _ => cl))| |lia|cbn; auto].
    + intros acc. change 1%nat with (1 + 0)%nat.
      eapply safe_bind; [exact (proj1 (IHt Ht))|]. intros v. apply safe_ret. auto.
    + intros x [_ Hx]. exact Hx.
  - apply andb_prop in Ht as [Hk Hv].
    cbn [decodeValue]. change 1%nat with (1 + (0 + (0 + 0)))%nat.
    eapply safe_bind with (Q1 := fun _ => cl).
    { intros s Hi Hl Hd. unfold map_begin. pose proof (h_map F d s Hi Hl Hd) as H.
      destruct (d_readMapBegin D s) as [[a|e|] s1]; auto. }
    intros [[kt vt] n].
    eapply safe_seq; [apply safe_check|].
    eapply safe_bind with (Q1 := fun _ => cl); [|intros l; apply safe_ret; auto].
    eapply safe_weak; [apply (safe_repeatM F d (fun _ => cl))| |lia|cbn; auto].
    + intros acc. change 1%nat with (1 + (0 + 0))%nat.
      eapply safe_bind; [exact (proj1 (IHt1 Hk))|]. intros k.
      eapply safe_bind with (Q1 := fun _ => cl).
      { eapply safe_weak; [exact (proj1 (IHt2 Hv))|cbn; auto|lia|cbn; auto]. }
      intros v. destruct (hashable t1); [apply safe_ret; auto|apply safe_raise, Htype].
    + intros x [_ Hx]. exact Hx.
  - cbn [decodeValue]. apply Hrs.
Qed.

Lemma spec_made_of ds i : forall pos j d, forallb (fun d => made_of bt (f_ty d)) ds = true ->
  nth_error (spec_entries pos j ds) i = Some (Some d) -> made_of bt (f_ty (snd d)) = true.
Proof.
  intros pos j d Hds H. apply nth_error_In in H. revert pos j H.
  induction ds as [|d0 ds IH]; intros pos j H; [destruct H|].
  cbn [spec_entries forallb] in *. apply andb_prop in Hds as [H1 H2].
  apply in_app_or in H as [H|H]; [apply repeat_spec in H; discriminate|].
  destruct H as [H|H]; [injection H as <-; exact H1|]. eapply IH; eassumption.
Qed.

Lemma cread_fields_safe d rv F skd spec : 0 <= d <= 64 -> 65 <= d + Z.of_nat skd ->
  (forall t, made_of bt t = true -> vsafe F d (code t) (rv t)) ->
  (forall i e, nth_error spec i = Some (Some e) -> made_of bt (f_ty (snd e)) = true) ->
  forall fuel F' acc, (F' <= fuel)%nat -> (F' <= F)%nat ->
  safe F' d cl 1 (fun _ => cl) (cread_fields D fuel F skd rv spec acc).
Proof.
  intros Hd0 Hk Hrv Hsp.
  induction fuel as [|fuel IH]; intros F' acc HF HF' s Hi Hl Hd; [lia|].
  cbn [cread_fields]. unfold bind at 1. pose proof (h_field F' d s Hi Hl Hd) as H1.
  destruct (d_readFieldBegin D s) as [[[type tag]|e|] s1]; auto.
  destruct H1 as (Q1 & D1 & p & E1 & L1). cbn [fst] in Q1.
  destruct (type =? T_STOP).
  - cbn. split; [exact Q1|]. split; [exact D1|]. exists p. split; [exact E1|exact L1].
  - assert (HF1 : (length (inp s1) < F' - 1)%nat) by (rewrite E1, app_length in Hl; lia).
    assert (G : forall A (m : M X A) (g : A -> list (option value)), vsafe F d type m ->
      match (v <- m ;; cread_fields D fuel F skd rv spec (g v)) s1 with
      | (Ok a, s') => cl (px s') /\ depth s' = d
                    /\ exists pre, inp s = pre ++ inp s' /\ (1 <= length pre)%nat
      | (Raise e, _) => okx e
      | (Diverge, _) => False
      end).
    { intros A m g [_ Hm].
      assert (K : safe (F' - 1) d (at_type type) (0 + 1) (fun _ => cl)
              (v <- m ;; cread_fields D fuel F skd rv spec (g v))).
      { eapply safe_bind; [apply (safe_le F); [lia|exact Hm]|].
        intros v. apply IH; lia. }
      specialize (K s1 Q1 HF1 D1).
      destruct ((v <- m ;; cread_fields D fuel F skd rv spec (g v)) s1) as [[b|e|] s2]; auto.
      destruct K as (K1 & K2 & q & K3 & K4). split; [auto|]. split; [auto|].
      exists (p ++ q). rewrite E1, K3, app_assoc, app_length. split; [reflexivity|lia]. }
    cbv zeta. destruct ((tag <? 0) || _).
    { apply (G _ _ (fun _ => acc)), cskip_safe; assumption. }
    destruct (nth_error spec (Z.to_nat tag)) as [[[i dd]|]|] eqn:E.
    + destruct (negb (code (f_ty dd) =? type)) eqn:Ec.
      { apply (G _ _ (fun _ => acc)), cskip_safe; assumption. }
      apply (G _ _ (fun v => set_nth i (Some v) acc)).
      replace type with (code (f_ty dd)) by lia. apply Hrv. exact (Hsp _ _ E).
    + apply (G _ _ (fun _ => acc)), cskip_safe; assumption.
    + apply (G _ _ (fun _ => acc)), cskip_safe; assumption.
Qed.

Theorem cread_struct_safe env F : env_made_of bt env = true ->
  forall dfuel d n, 0 <= d <= 64 -> 65 <= d + Z.of_nat dfuel ->
  safe F d cl 1 (fun _ => cl) (cread_struct D env dfuel F n).
Proof.
  intros Henv. induction dfuel as [|k IH]; intros d n Hd Hk; [lia|].
  cbn [cread_struct]. destruct (nth_error env n) as [ds|] eqn:E; [|apply safe_raise, Htype].
  assert (Hds : forallb (fun d => made_of bt (f_ty d)) ds = true).
  { unfold env_made_of in Henv. rewrite forallb_forall in Henv. apply Henv.
    eapply nth_error_In, E. }
  apply safe_guard; [exact Hdepth|]. intros Hd'. apply safe_scope.
  change 1%nat with (1 + 0)%nat.
  eapply safe_bind with (Q1 := fun _ => cl); [|intros acc; apply safe_ret; auto].
  apply cread_fields_safe; [lia|lia| | |lia|lia].
  - intros t Ht. apply decodeValue_safe; [|exact Ht]. intros m. apply IH; lia.
  - intros i e He. unfold thrift_spec in He. destruct ds as [|d0 ds]; [destruct i; discriminate|].
    destruct (0 <=? f_id d0); [|destruct i; discriminate].
    eapply spec_made_of; eassumption.
Qed.

Lemma fast_safe env n x0 buf : env_made_of bt env = true -> cl x0 ->
  match fast_deserialize D x0 env n buf with
  | Ok (_, rest) => exists pre, buf = pre ++ rest /\ pre <> []
  | Raise e => okx e
  | Diverge => False
  end.
Proof.
  intros Henv Hx. unfold fast_deserialize.
  pose proof (cread_struct_safe env (S (length buf)) Henv 66 0 n ltac:(lia) ltac:(lia)
    (mkst x0 buf [] 0) Hx ltac:(cbn; lia) eq_refl) as H.
  destruct (cread_struct _ _ _ _ _ _) as [[v|e|] s]; auto.
  destruct H as (_ & _ & pre & E & L). exists pre. split; [exact E|].
  destruct pre; [cbn in L; lia|discriminate].
Qed.
End Safe.
