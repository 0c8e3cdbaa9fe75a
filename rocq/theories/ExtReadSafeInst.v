(** Behaviour on arbitrary input of the two accelerated decoders. *)
From Coq Require Import ZArith List Bool Lia.
From Coq Require Import Init.Byte.
From Coq Require Import ZifyBool ZifyNat ZifyN.
From Verif Require Import Base Bytes BytesFacts Utf8 Utf8Facts Proto Spec RoundTrip Dynamic
  PostFacts Ext ExtFacts ExtRead ExtReadSafe.
Import ListNotations.
Open Scope Z_scope.

(** * Posts of the generic decoder *)
Section Post.
Context {X : Type} (D : dimpl X) (env : schema).
Variable B : ty -> value -> Prop.
Variable CL : Z -> Prop.
Hypothesis Hbase : forall t, base_ty t = true -> post (B t) (decode_base D t).
Hypothesis Hlist : post (fun p => 0 <= snd p /\ CL (snd p)) (d_readListBegin D).
Hypothesis Hmap : post (fun p => 0 <= snd p /\ CL (snd p)) (d_readMapBegin D).
Notation dec := (decoded env B CL).

Lemma fold_set_add_len l : forall acc,
  (length (fold_left set_add l acc) <= length acc + length l)%nat.
Proof.
  induction l as [|v l IH]; intros acc; cbn [fold_left length]; [lia|].
  specialize (IH (set_add acc v)). pose proof (set_add_len acc v). lia.
Qed.
Lemma fold_set_add_Forall Q l : forall acc, Forall Q acc -> Forall Q l ->
  Forall Q (fold_left set_add l acc).
Proof.
  induction l as [|v l IH]; intros acc Ha Hl; cbn [fold_left]; [exact Ha|].
  inversion Hl; subst. apply IH; [|assumption]. apply set_add_Forall; assumption.
Qed.

Lemma decodeValue_post rs F t : (forall n, post (dec (TStruct n)) (rs n)) ->
  post (dec t) (decodeValue D rs F t).
Proof.
  intros Hrs. induction t as [| | | | | | | | |t IH|t IH|k IHk t IH|n]; cbn [decodeValue];
    try (eapply post_mono; [|apply Hbase; reflexivity];
         intros a Ha; apply D_base; [reflexivity|exact Ha]).
  - eapply post_bind; [apply Hlist|]. intros [et sz] [H0 HC]. cbn [snd] in *.
    apply post_seq.
    eapply post_bind with (P := fun l => exists i, 0 <= i <= 0 + Z.max 0 sz /\
      Z.of_nat (length l) <= i /\ Forall (dec t) l).
    + apply post_repeat with (I := fun i l => Z.of_nat (length l) <= i
        /\ Forall (dec t) l).
      * intros l j [Hl Hf]. eapply post_bind; [apply IH|]. intros v Hv.
        apply post_ret. rewrite app_length. cbn [length]. split; [lia|].
        apply Forall_app. split; [exact Hf|constructor; [exact Hv|constructor]].
      * split; [cbn; lia|constructor].
    + intros l (i & Hi & Hl & Hf). apply post_ret. apply D_list.
      * exists sz. split; [lia|exact HC].
      * exact Hf.
  - eapply post_bind; [apply Hlist|]. intros [et sz] [H0 HC]. cbn [snd] in *.
    apply post_seq.
    eapply post_bind with (P := fun l => exists i, 0 <= i <= 0 + Z.max 0 sz /\
      Z.of_nat (length l) <= i /\ Forall (dec t) l).
    + apply post_repeat with (I := fun i l => Z.of_nat (length l) <= i
        /\ Forall (dec t) l).
      * intros l j [Hl Hf]. eapply post_bind; [apply IH|]. intros v Hv.
        apply post_ret. rewrite app_length. cbn [length]. split; [lia|].
        apply Forall_app. split; [exact Hf|constructor; [exact Hv|constructor]].
      * split; [cbn; lia|constructor].
    + intros l (i & Hi & Hl & Hf). destruct (hashable t || _); [|apply post_raise].
      apply post_ret. apply D_set.
      * exists sz. pose proof (fold_set_add_len l []) as H. cbn [length] in H.
        split; [lia|exact HC].
      * apply fold_set_add_Forall; [constructor|exact Hf].
  - eapply post_bind with (P := fun p => 0 <= snd p /\ CL (snd p)).
    { intros s a s' E. unfold map_begin in E.
      destruct (d_readMapBegin D s) as [[b|e|] s1] eqn:Em; try discriminate.
      assert (b = a) by congruence. subst. exact (Hmap _ _ _ Em). }
    intros [[kt et] sz] [H0 HC]. cbn [snd] in *. apply post_seq.
    eapply post_bind with (P := fun l => exists i, 0 <= i <= 0 + Z.max 0 sz /\
      Z.of_nat (length l) <= i
      /\ Forall (fun p => dec k (fst p) /\ dec t (snd p)) l).
    + apply post_repeat with (I := fun i l => Z.of_nat (length l) <= i
        /\ Forall (fun p => dec k (fst p) /\ dec t (snd p)) l).
      * intros l j [Hl Hf]. eapply post_bind; [apply IHk|]. intros a Ha.
        eapply post_bind; [apply IH|]. intros v Hv.
        destruct (hashable k); [|apply post_raise].
        apply post_ret. pose proof (dict_set_len l a v). split; [lia|].
        apply dict_set_Forall; assumption.
      * split; [cbn; lia|constructor].
    + intros l (i & Hi & Hl & Hf). apply post_ret. apply D_map.
      * exists sz. split; [lia|exact HC].
      * exact Hf.
  - apply Hrs.
Qed.

Lemma nth_spec_entries ds : forall pos j i k d,
  nth_error (spec_entries pos j ds) i = Some (Some (k, d)) ->
  (j <= k)%nat /\ nth_error ds (k - j) = Some d.
Proof.
  induction ds as [|d0 ds IH]; intros pos j i k d H.
  - destruct i; discriminate.
  - apply nth_error_In in H. cbn [spec_entries] in H.
    apply in_app_or in H as [H|H]; [apply repeat_spec in H; discriminate|].
    destruct H as [H|H].
    + injection H as <- <-. rewrite Nat.sub_diag. split; [lia|reflexivity].
    + apply In_nth_error in H as [i' H]. destruct (IH _ _ _ _ _ H) as [H1 H2].
      split; [lia|]. replace (k - j)%nat with (S (k - S j)) by lia. exact H2.
Qed.

Lemma cread_fields_post ds F skf skd rv : (forall t, post (dec t) (rv t)) -> forall acc,
  Forall2 (fun d f => f = f_def d \/ exists x, f = Some x /\ dec (f_ty d) x) ds acc ->
  post (Forall2 (fun d f => f = f_def d \/ exists x, f = Some x /\ dec (f_ty d) x) ds)
    (cread_fields D F skf skd rv (thrift_spec ds) acc).
Proof.
  intros Hrv. induction F as [|F IH]; intros acc Hacc; cbn [cread_fields].
  { intros s a s' E. discriminate. }
  apply post_then. intros [ft fid].
  destruct (ft =? T_STOP); [apply post_ret, Hacc|].
  cbv zeta. destruct ((fid <? 0) || _); [apply post_seq, IH, Hacc|].
  destruct (nth_error _ _) as [[[i d]|]|] eqn:E; try (apply post_seq, IH, Hacc).
  destruct (negb _); [apply post_seq, IH, Hacc|].
  eapply post_bind; [apply Hrv|]. intros v Hv. apply IH.
  assert (E' : nth_error ds i = Some d).
  { unfold thrift_spec in E. destruct ds as [|d0 ds']; [destruct (Z.to_nat fid); discriminate|].
    destruct (0 <=? f_id d0); [|destruct (Z.to_nat fid); discriminate].
    apply nth_spec_entries in E as [_ E]. rewrite Nat.sub_0_r in E. exact E. }
  eapply set_nth_Forall2; [exact Hacc|exact E'|].
  right. exists v. split; [reflexivity|exact Hv].
Qed.

Lemma cread_struct_post k : forall F n, post (dec (TStruct n)) (cread_struct D env k F n).
Proof.
  induction k as [|k IH]; intros F n; cbn [cread_struct].
  { intros s a s' E. discriminate. }
  destruct (nth_error env n) as [ds|] eqn:E; [|apply post_raise].
  assert (TF : forall A (Q : A -> Prop) (m : M X A) g, post Q m -> post Q (try_finally m g)).
  { intros A Q m g H s a s' Ef. unfold try_finally in Ef. destruct (m s) as [r s1] eqn:Em.
    assert (r = Ok a) by congruence. subst. exact (H _ _ _ Em). }
  assert (RG : forall A (Q : A -> Prop) (m : M X A), post Q m -> post Q (recursion_guard m)).
  { intros A Q m H s a s' Ef. unfold recursion_guard in Ef. destruct (_ >? 64); [discriminate|].
    exact (TF A Q m _ H _ _ _ Ef). }
  apply RG. unfold read_scope. apply post_seq, TF.
  eapply post_bind.
  - apply cread_fields_post.
    + intros t. apply decodeValue_post. intros m. apply IH.
    + unfold fresh. clear E. induction ds as [|d ds IHd]; cbn [map]; constructor; auto.
  - intros acc Hacc. apply post_ret. eapply D_struct; eassumption.
Qed.

Lemma fast_decoded x0 n buf v rest : fast_deserialize D x0 env n buf = Ok (v, rest) ->
  dec (TStruct n) v.
Proof.
  unfold fast_deserialize. intros H.
  destruct (cread_struct D env 66 (S (length buf)) n (mkst x0 buf [] 0)) as [[w|e|] s'] eqn:E;
    try discriminate. assert (w = v) by congruence. subst.
  exact (cread_struct_post _ _ _ _ _ _ E).
Qed.
End Post.

(** * Primitives *)

(** The exceptions the decoders raise. *)
Definition x_exn (e : exn) : Prop :=
  e = EEOFError \/ e = EValueError \/ e = ETypeError \/ e = EOverflow
  \/ e = EProtocol TP_DEPTH_LIMIT.

Section P.
Context {X : Type} (okx : exn -> Prop).
Hypothesis Hx : forall e, x_exn e -> okx e.
Notation safe := (@safe X okx).

Lemma safe_readBytes F d (J : X -> Prop) n :
  safe F d J (Z.to_nat n) (fun l x => J x /\ Z.of_nat (length l) = Z.max 0 n) (readBytes n).
Proof.
  intros s Hj Hl Hd. unfold readBytes.
  destruct (n <? 0) eqn:E; [apply Hx; unfold x_exn; auto|].
  destruct (n <=? Z.of_nat (length (inp s))) eqn:E2; [|apply Hx; unfold x_exn; auto].
  cbn [px inp depth]. split; [split; [exact Hj|]|split; [exact Hd|]].
  - rewrite firstn_length. lia.
  - exists (firstn (Z.to_nat n) (inp s)). rewrite firstn_skipn, firstn_length.
    split; [reflexivity|lia].
Qed.

Lemma safe_map {A B} F d (J : X -> Prop) k (Q : A -> X -> Prop) (m : M X A) (f : A -> B) :
  safe F d J k Q m -> (forall a x, Q a x -> J x) ->
  safe F d J k (fun _ => J) (v <- m ;; ret (f v)).
Proof.
  intros H Hq. replace k with (k + 0)%nat by lia. eapply safe_bind; [exact H|].
  intros a. apply safe_ret. apply Hq.
Qed.

Lemma safe_readU8 F d (J : X -> Prop) : safe F d J 1 (fun _ => J) readU8.
Proof.
  unfold readU8. eapply safe_map; [apply (safe_readBytes F d J 1)|].
  intros a x [H _]. exact H.
Qed.

Lemma safe_limit F d (J : X -> Prop) n l :
  safe F d J 0 (fun _ => J) (checkLengthLimit n l).
Proof.
  unfold checkLengthLimit. cbv zeta.
  destruct (_ <? 0); [apply safe_raise, Hx; unfold x_exn; auto|].
  destruct (_ >? l); [apply safe_raise, Hx; unfold x_exn; auto|].
  apply safe_ret. auto.
Qed.

Lemma safe_k {A} F d (J : X -> Prop) k k' (Q : A -> X -> Prop) m :
  safe F d J k Q m -> (k' <= k)%nat -> safe F d J k' Q m.
Proof. intros H Hk. eapply safe_weak; [exact H|auto|exact Hk|auto]. Qed.

Lemma safe_then {A B} F d (J : X -> Prop) k1 k2 (Q : B -> X -> Prop) (m : M X A) (f : A -> M X B) :
  safe F d J k1 (fun _ => J) m -> (forall a, safe F d J k2 Q (f a)) ->
  safe F d J (k1 + k2) Q (bind m f).
Proof. intros H1 H2. eapply safe_bind; [exact H1|exact H2]. Qed.

Lemma safe_skip F d (J : X -> Prop) n : safe F d J (Z.to_nat n) (fun _ => J) (SKIPBYTES n).
Proof.
  unfold SKIPBYTES. replace (Z.to_nat n) with (Z.to_nat n + 0)%nat by lia.
  eapply safe_seq; [apply safe_readBytes|]. apply safe_ret. intros x (a & H & _). exact H.
Qed.
End P.

(** * Binary *)
Section B.
Variables (big : bool) (sl cl : option Z).
Notation D := (dbinary big sl cl).
Variable okx : exn -> Prop.
Hypothesis Hx : forall e, x_exn e -> okx e.
Notation T := (fun _ : unit => True).

Lemma sb_int F d n (f : list byte -> Z) : (0 < n)%nat ->
  safe okx F d T n (fun _ => T) (l <- readBytes (Z.of_nat n) ;; ret (f l)).
Proof.
  intros Hn. eapply safe_weak; [eapply safe_map; [apply (safe_readBytes okx Hx F d T)|]| | |];
    cbn; auto. lia.
Qed.

Lemma sb_i32 F d : safe okx F d T 4 (fun _ => T) (eb_readI32 big).
Proof. apply (sb_int F d 4). lia. Qed.

Lemma sb_string F d : safe okx F d T 1 (fun _ => T) (eb_readString big sl).
Proof.
  unfold eb_readString. apply safe_k with (k := (4 + (0 + 0))%nat); [|lia].
  apply safe_then; [apply sb_i32|]. intros n. apply safe_then; [apply safe_limit, Hx|intros _].
  eapply safe_weak; [apply (safe_readBytes okx Hx F d T)| |lia|]; cbn; auto.
Qed.

Lemma sb_read (over : bool) F d t : (over = true -> okx OVERREAD) -> base_ty t = true ->
  (if over then true else negb (code t =? T_UUID)) = true ->
  safe okx F d T 1 (fun _ => T) (decode_base D t).
Proof.
  intros Ho Hb Hu. destruct t; try discriminate Hb; cbn [decode_base dbinary d_readBool
    d_readI8 d_readI16 d_readI32 d_readI64 d_readDouble d_readString d_readUuid].
  - apply safe_map with (Q := fun _ => T); auto. unfold eb_readBool.
    eapply safe_map; [apply (safe_readU8 okx Hx)|auto].
  - apply safe_map with (Q := fun _ => T); auto. unfold eb_readI8.
    eapply safe_map; [apply (safe_readU8 okx Hx)|auto].
  - apply safe_map with (Q := fun _ => T); auto.
    eapply safe_weak; [apply (sb_int F d 2); lia| |lia|]; cbn; auto.
  - apply safe_map with (Q := fun _ => T); auto.
    eapply safe_weak; [apply (sb_int F d 4); lia| |lia|]; cbn; auto.
  - apply safe_map with (Q := fun _ => T); auto.
    eapply safe_weak; [apply (sb_int F d 8); lia| |lia|]; cbn; auto.
  - apply safe_map with (Q := fun _ => T); auto. unfold eb_readDouble.
    apply safe_map with (Q := fun _ => T); auto.
    eapply safe_weak; [apply (sb_int F d 8); lia| |lia|]; cbn; auto.
  - apply safe_map with (Q := fun _ => T); auto. apply sb_string.
  - apply safe_map with (Q := fun _ => T); auto. apply sb_string.
  - apply safe_map with (Q := fun _ => T); auto.
    destruct over; [|discriminate Hu]. specialize (Ho eq_refl).
    intros s Hi Hl Hd. unfold eb_readUuid.
    pose proof (safe_readBytes okx Hx F d T 16 s Hi Hl Hd) as H.
    destruct (readBytes 16 s) as [[a|e|] s1]; auto.
    destruct H as (_ & H2 & pre & H3 & H4). split; [exact I|]. split; [exact H2|].
    exists pre. split; [exact H3|]. change (Z.to_nat 16) with 16%nat in H4. lia.
Qed.

Lemma sb_skip F d t : base_ty t = true ->
  safe okx F d T 1 (fun _ => T) (match t with
    | TBool => d_skipBool D | TByte => d_skipByte D | TI16 => d_skipI16 D
    | TI32 => d_skipI32 D | TI64 => d_skipI64 D | TDouble => d_skipDouble D
    | TUuid => d_skipUuid D | _ => d_skipString D end).
Proof.
  assert (S : forall n, 1 <= n -> safe okx F d T 1 (fun _ => T) (SKIPBYTES n)).
  { intros n Hn. eapply safe_k; [apply (safe_skip okx Hx)|lia]. }
  assert (SS : safe okx F d T 1 (fun _ => T) (eb_skipString big)).
  { unfold eb_skipString. apply safe_k with (k := (4 + 0)%nat); [|lia].
    apply safe_then; [apply sb_i32|]. intros n.
    eapply safe_k; [apply (safe_skip okx Hx)|lia]. }
  intros Hb. destruct t; try discriminate Hb; cbn; try (apply S; lia); apply SS.
Qed.

Lemma sb_list F d : safe okx F d T 1 (fun _ => T) (d_readListBegin D).
Proof.
  cbn. unfold eb_readListBegin. apply safe_k with (k := (1 + (4 + (0 + 0)))%nat); [|lia].
  apply safe_then; [apply (safe_readU8 okx Hx)|]. intros b.
  apply safe_then; [apply sb_i32|]. intros n. apply safe_then; [apply safe_limit, Hx|intros _].
  apply safe_ret. auto.
Qed.
Lemma sb_map F d : safe okx F d T 1 (fun _ => T) (d_readMapBegin D).
Proof.
  cbn. unfold eb_readMapBegin. apply safe_k with (k := (1 + (1 + (4 + (0 + 0))))%nat); [|lia].
  apply safe_then; [apply (safe_readU8 okx Hx)|]. intros b.
  apply safe_then; [apply (safe_readU8 okx Hx)|]. intros b'.
  apply safe_then; [apply sb_i32|]. intros n. apply safe_then; [apply safe_limit, Hx|intros _].
  apply safe_ret. auto.
Qed.
Lemma sb_field F d : safe okx F d T 1
  (fun p x => if fst p =? T_STOP then T x else at_type T (fst p) x) (d_readFieldBegin D).
Proof.
  apply safe_weak with (I := T) (k := 1%nat) (Q := fun _ => T); [|auto|lia|].
  2:{ intros p x _. destruct (_ =? _); [exact I|left; exact I]. }
  cbn. unfold eb_readFieldBegin. change 1%nat with (1 + 0)%nat.
  apply safe_then; [apply (safe_readU8 okx Hx)|]. intros b.
  destruct (b =? T_STOP); [apply safe_ret; auto|].
  eapply safe_k; [eapply safe_map; [apply (sb_int F d 2); lia|auto]|lia].
Qed.

Lemma binary_fast_safe (over : bool) env n buf : (over = true -> okx OVERREAD) ->
  env_made_of (fun t => if over then true else negb (code t =? T_UUID)) env = true ->
  match fast_deserialize D tt env n buf with
  | Ok (_, rest) => exists pre, buf = pre ++ rest /\ pre <> []
  | Raise e => okx e
  | Diverge => False
  end.
Proof.
  intros Ho Henv.
  apply (fast_safe okx D T (fun t => if over then true else negb (code t =? T_UUID))).
  - apply Hx. unfold x_exn. auto 6.
  - apply Hx. unfold x_exn. auto 6.
  - intros F d t Hb Ht. apply (sb_read over); assumption.
  - intros F d. cbn. unfold eb_readBool.
    eapply safe_k; [eapply safe_map; [apply (safe_readU8 okx Hx)|auto]|lia].
  - intros F d t Hb. apply sb_skip, Hb.
  - intros F d. cbn. eapply safe_k; [apply (safe_skip okx Hx)|lia].
  - intros F d. apply sb_list.
  - intros F d. apply sb_map.
  - intros F d. apply safe_ret. auto.
  - intros s. cbn. auto.
  - intros F d. apply sb_field.
  - exact Henv.
  - exact I.
Qed.
End B.

(** * Compact *)
Section C.
Variables (big : bool) (sl cl : option Z).
Notation D := (dcompact big sl cl).
Variable okx : exn -> Prop.
Hypothesis Hx : forall e, x_exn e -> okx e.
Definition no_bool (x : crd) : Prop := rbool x = None.
Notation N := no_bool.

Lemma sc_varint F d (J : crd -> Prop) w : forall max sh v,
  safe okx F d J (Nat.min 1 max) (fun _ => J) (cread_varint max w sh v).
Proof.
  induction max as [|k IH]; intros sh v; cbn [cread_varint].
  - apply safe_raise, Hx. unfold x_exn. auto.
  - apply safe_k with (k := (1 + 0)%nat); [|lia].
    apply safe_then; [apply (safe_readU8 okx Hx)|]. intros b.
    destruct (negb _); [eapply safe_k; [apply IH|lia]|apply safe_ret; auto].
Qed.
Lemma sc_int F d (J : crd -> Prop) w n (f : Z -> Z) : (0 < n)%nat ->
  safe okx F d J 1 (fun _ => J) (u <- cread_varint n w 0 0 ;; ret (f u)).
Proof.
  intros Hn. apply safe_map with (Q := fun _ => J); auto.
  eapply safe_k; [apply sc_varint|lia].
Qed.

Lemma sc_bool F d : safe okx F d (fun _ => True) 0 (fun _ => N) ec_readBool.
Proof.
  intros s _ Hl Hd. unfold ec_readBool, bind, get_px, set_px, ret.
  destruct (rbool (px s)) as [b|] eqn:E.
  - cbn. split; [reflexivity|]. split; [exact Hd|]. exists []. split; auto.
  - pose proof (safe_readU8 okx Hx F d N s E Hl Hd) as H.
    destruct (readU8 s) as [[z|e|] s1]; auto. destruct H as (H1 & H2 & p & H3 & H4).
    split; [exact H1|]. split; [exact H2|]. exists p. split; [exact H3|lia].
Qed.
Lemma sc_bool1 F d : safe okx F d N 1 (fun _ => N) ec_readBool.
Proof.
  intros s E Hl Hd. unfold ec_readBool, bind, get_px, set_px, ret. red in E.
  rewrite E. pose proof (safe_readU8 okx Hx F d N s E Hl Hd) as H.
  destruct (readU8 s) as [[z|e|] s1]; auto.
Qed.

Lemma sc_string F d : safe okx F d N 1 (fun _ => N) (ec_readString sl).
Proof.
  unfold ec_readString. apply safe_k with (k := (1 + (0 + 0))%nat); [|lia].
  apply safe_then; [eapply safe_k; [apply sc_varint|lia]|]. intros n.
  apply safe_then; [apply safe_limit, Hx|]. intros _.
  destruct (n =? 0); [apply safe_ret; auto|].
  eapply safe_weak; [apply (safe_readBytes okx Hx F d N)|auto|lia|].
  intros a x [H _]. exact H.
Qed.

Lemma sc_read F d t : base_ty t = true -> safe okx F d N 1 (fun _ => N) (decode_base D t).
Proof.
  assert (RB : forall n, 1 <= n -> safe okx F d N 1 (fun _ => N) (readBytes n)).
  { intros n Hn. eapply safe_weak; [apply (safe_readBytes okx Hx F d N)|auto|lia|].
    intros a x [H _]. exact H. }
  intros Hb. destruct t; try discriminate Hb; cbn [decode_base dcompact d_readBool
    d_readI8 d_readI16 d_readI32 d_readI64 d_readDouble d_readString d_readUuid];
    apply safe_map with (Q := fun _ => N); auto.
  - apply sc_bool1.
  - unfold ec_readI8. apply safe_map with (Q := fun _ => N); auto. apply (safe_readU8 okx Hx).
  - apply sc_int. lia.
  - apply sc_int. lia.
  - apply sc_int. lia.
  - unfold ec_readDouble. apply safe_map with (Q := fun _ => N); auto. apply RB. lia.
  - apply sc_string.
  - apply sc_string.
  - apply RB. lia.
Qed.

Lemma sc_skip F d t : base_ty t = true ->
  safe okx F d N 1 (fun _ => N) (match t with
    | TBool => d_skipBool D | TByte => d_skipByte D | TI16 => d_skipI16 D
    | TI32 => d_skipI32 D | TI64 => d_skipI64 D | TDouble => d_skipDouble D
    | TUuid => d_skipUuid D | _ => d_skipString D end).
Proof.
  assert (S : forall n, 1 <= n -> safe okx F d N 1 (fun _ => N) (SKIPBYTES n)).
  { intros n Hn. eapply safe_k; [apply (safe_skip okx Hx)|lia]. }
  assert (SS : safe okx F d N 1 (fun _ => N) ec_skipString).
  { unfold ec_skipString. apply safe_k with (k := (1 + 0)%nat); [|lia].
    apply safe_then; [eapply safe_k; [apply sc_varint|lia]|]. intros n.
    eapply safe_k; [apply (safe_skip okx Hx)|lia]. }
  intros Hb. destruct t; try discriminate Hb; cbn [dcompact d_skipBool d_skipByte d_skipI16
    d_skipI32 d_skipI64 d_skipDouble d_skipUuid d_skipString]; try (apply S; lia); try apply SS;
    (apply safe_map with (Q := fun _ => N); [|auto]).
  - apply sc_bool1.
  - apply sc_int. lia.
  - apply sc_int. lia.
  - apply sc_int. lia.
Qed.

Lemma sc_ttype F d (J : crd -> Prop) ct : safe okx F d J 0 (fun _ => J) (getTType ct).
Proof.
  unfold getTType.
  repeat (match goal with |- context [if ?c then _ else _] => destruct c end;
          [apply safe_ret; auto|]).
  apply safe_raise, Hx. unfold x_exn. auto.
Qed.

Lemma sc_list F d : safe okx F d N 1 (fun _ => N) (d_readListBegin D).
Proof.
  cbn. unfold ec_readListBegin. apply safe_k with (k := (1 + (0 + (0 + (0 + 0))))%nat); [|lia].
  apply safe_then; [apply (safe_readU8 okx Hx)|]. intros b.
  apply safe_then; [apply sc_ttype|]. intros et. cbv zeta.
  apply safe_then.
  { destruct (_ =? 15); [eapply safe_k; [apply sc_varint|lia]|apply safe_ret; auto]. }
  intros n. apply safe_then; [apply safe_limit, Hx|intros _]. apply safe_ret. auto.
Qed.
Lemma sc_map F d : safe okx F d N 1 (fun _ => N) (d_readMapBegin D).
Proof.
  cbn. unfold ec_readMapBegin. apply safe_k with (k := (1 + (0 + 0))%nat); [|lia].
  apply safe_then; [eapply safe_k; [apply sc_varint|lia]|]. intros n.
  apply safe_then; [apply safe_limit, Hx|intros _].
  destruct (negb (n =? 0)); [|apply safe_ret; auto].
  apply safe_k with (k := (1 + (0 + (0 + 0)))%nat); [|lia].
  apply safe_then; [apply (safe_readU8 okx Hx)|]. intros b.
  apply safe_then; [apply sc_ttype|]. intros kt.
  apply safe_then; [apply sc_ttype|]. intros vt. apply safe_ret. auto.
Qed.
Lemma getTType_not_bool ct s t s' : getTType ct s = (Ok t, s') ->
  (ct =? 2) || (ct =? 1) = true -> t = T_BOOL.
Proof.
  unfold getTType. intros E H. destruct (ct =? 0) eqn:E0; [lia|].
  replace ((ct =? 1) || (ct =? 2)) with true in E by lia. unfold ret in E. congruence.
Qed.
Lemma sc_field F d : safe okx F d N 1
  (fun p x => if fst p =? T_STOP then N x else at_type N (fst p) x) (d_readFieldBegin D).
Proof.
  cbn [dcompact d_readFieldBegin]. unfold ec_readFieldBegin.
  apply safe_k with (k := (1 + 0)%nat); [|lia].
  apply safe_then; [apply (safe_readU8 okx Hx)|]. intros b. cbv zeta.
  intros s Hn Hl Hd. unfold bind at 1.
  pose proof (sc_ttype F d N (Z.land b 15) s Hn Hl Hd) as H.
  destruct (getTType (Z.land b 15) s) as [[t|e|] s1] eqn:Et; auto.
  destruct H as (N1 & D1 & p & E1 & _).
  destruct (t =? T_STOP) eqn:Es.
  { cbn [ret fst]. unfold ret. cbn [fst]. rewrite Es. split; [exact N1|]. split; [exact D1|].
    exists p. split; [exact E1|lia]. }
  assert (Hl1 : (length (inp s1) < F)%nat) by (rewrite E1, app_length in Hl; lia).
  unfold bind at 1, get_px. unfold bind at 1.
  set (m := if negb (Z.shiftr (Z.land b 240) 4 =? 0) then _ else _).
  assert (Hm : safe okx F d N 0 (fun _ => N) m).
  { unfold m. destruct (negb _); [apply safe_ret; auto|].
    eapply safe_k; [apply sc_int; lia|lia]. }
  specialize (Hm s1 N1 Hl1 D1). destruct (m s1) as [[tag|e|] s2]; auto.
  destruct Hm as (N2 & D2 & q & E2 & _).
  unfold bind, set_px, ret. cbn [fst px inp depth]. rewrite Es.
  split; [|split; [exact D2|exists (p ++ q); rewrite E1, E2, app_assoc; split; [reflexivity|lia]]].
  unfold at_type, no_bool. cbn [rbool].
  destruct ((Z.land b 15 =? 2) || (Z.land b 15 =? 1)) eqn:Eb.
  - right. eapply getTType_not_bool; eassumption.
  - left. exact N1.
Qed.

Lemma compact_fast_safe env n buf :
  match fast_deserialize D crd_init env n buf with
  | Ok (_, rest) => exists pre, buf = pre ++ rest /\ pre <> []
  | Raise e => okx e
  | Diverge => False
  end.
Proof.
  apply (fast_safe okx D N (fun _ => true)).
  - apply Hx. unfold x_exn. auto 6.
  - apply Hx. unfold x_exn. auto 6.
  - intros F d t Hb _. apply sc_read, Hb.
  - intros F d. apply sc_bool.
  - intros F d t Hb. apply sc_skip, Hb.
  - intros F d. apply safe_k with (k := (0 + 0)%nat); [|lia].
    eapply safe_bind; [apply sc_bool|]. intros b. apply safe_ret. auto.
  - intros F d. apply sc_list.
  - intros F d. apply sc_map.
  - intros F d s Hn Hl Hd. cbn. split; [exact Hn|]. split; [exact Hd|].
    exists []. split; auto.
  - intros s. cbn. auto.
  - intros F d. apply sc_field.
  - unfold env_made_of. apply forallb_forall. intros ds _. apply forallb_forall. intros dd _.
    assert (G : forall t, made_of (fun _ => true) t = true).
    { induction t; cbn [made_of]; try reflexivity; try assumption.
      rewrite IHt1, IHt2. reflexivity. }
    apply G.
  - reflexivity.
Qed.
End C.

(** * Values *)

(** What a base value can be: integers in range, strings made of scalar
    values and no longer than [SL] (in code points, as bytes that are not UTF-8
    become U+FFFD). *)
Definition x_base_ok (SL : Z) (t : ty) (v : value) : bool :=
  match t, v with
  | TString, VStr s => forallb scalar s && (Z.of_nat (length s) <=? SL)
  | _, _ => base_ok SL t v
  end.
(** The bound a configured limit gives. *)
Definition x_bound (o : option Z) : Z := Z.min (as_limit o) 2147483647.

Lemma replace_scalar n : forall l, (length l <= n)%nat ->
  forallb scalar (utf8_replace l) = true /\ (length (utf8_replace l) <= length l)%nat.
Proof.
  induction n as [|n IH]; intros l Hl; [destruct l; [split; reflexivity|cbn in Hl; lia]|].
  assert (G : forall c r, scalar c = true -> (length r < length l)%nat ->
    forallb scalar (c :: utf8_replace r) = true
    /\ (length (c :: utf8_replace r) <= length l)%nat).
  { intros c r Hc Hr. destruct (IH r ltac:(lia)) as [H1 H2]. cbn [forallb length].
    rewrite Hc, H1. split; [reflexivity|lia]. }
  assert (G1 : (1 <= length l)%nat -> forallb scalar [65533] = true
     /\ (length [65533%Z] <= length l)%nat) by (cbn; auto).
  destruct l as [|b0 r0]; [split; [reflexivity|cbn; lia]|].
  cbn [utf8_replace]. pose proof (b2z_range b0) as B0.
  destruct (b2z b0 <? 128) eqn:C0.
  { apply G; [unfold scalar; lia|cbn; lia]. }
  destruct (in_range 194 223 b0) eqn:C1.
  { destruct r0 as [|b1 r1]; [apply G1; cbn; lia|].
    pose proof (b2z_range b1) as B1.
    destruct (cont b1) eqn:K1; [|apply G; [reflexivity|cbn; lia]].
    unfold cont, in_range in *. apply G; [unfold scalar; lia|cbn; lia]. }
  destruct (in_range 224 239 b0) eqn:C2.
  { destruct r0 as [|b1 r1]; [apply G1; cbn; lia|].
    pose proof (b2z_range b1) as B1.
    match goal with |- context [if ?c then _ else _] => destruct c eqn:K1 end; [|apply G; [reflexivity|cbn; lia]].
    destruct r1 as [|b2 r2]; [apply G1; cbn; lia|]. pose proof (b2z_range b2) as B2.
    destruct (cont b2) eqn:K2; [|apply G; [reflexivity|cbn; lia]].
    unfold cont, in_range in *. apply G; [unfold scalar; lia|cbn; lia]. }
  destruct (in_range 240 244 b0) eqn:C3; [|apply G; [reflexivity|cbn; lia]].
  destruct r0 as [|b1 r1]; [apply G1; cbn; lia|].
  pose proof (b2z_range b1) as B1.
  match goal with |- context [if ?c then _ else _] => destruct c eqn:K1 end; [|apply G; [reflexivity|cbn; lia]].
  destruct r1 as [|b2 r2]; [apply G1; cbn; lia|]. pose proof (b2z_range b2) as B2.
  destruct (cont b2) eqn:K2; [|apply G; [reflexivity|cbn; lia]].
  destruct r2 as [|b3 r3]; [apply G1; cbn; lia|]. pose proof (b2z_range b3) as B3.
  destruct (cont b3) eqn:K3; [|apply G; [reflexivity|cbn; lia]].
  unfold cont, in_range in *. apply G; [unfold scalar; lia|cbn; lia].
Qed.

Lemma sN_range n z : (0 < n)%nat -> in_signed n (sN n z).
Proof.
  intros Hn. unfold sN, uN. apply to_signed_range; [assumption|].
  rewrite <- pow2_256. apply Z.mod_pos_bound, Z.pow_pos_nonneg; lia.
Qed.
Lemma uN_range n z : 0 <= uN n z < 2 ^ (8 * Z.of_nat n).
Proof. unfold uN. apply Z.mod_pos_bound, Z.pow_pos_nonneg; lia. Qed.

Lemma post_readBytes X n : post (fun l => Z.of_nat (length l) = n) (@readBytes X n).
Proof.
  intros s l s' E. unfold readBytes in E. destruct (n <? 0) eqn:E0; [discriminate|].
  destruct (n <=? _) eqn:E1; [|discriminate]. assert (l = firstn (Z.to_nat n) (inp s)) by congruence.
  subst. rewrite firstn_length. lia.
Qed.
Lemma post_limit X n o : post (fun _ : unit => 0 <= sN 4 n <= x_bound o)
  (@checkLengthLimit X n (as_limit o)).
Proof.
  intros s [] s' E. unfold checkLengthLimit in E. cbv zeta in E.
  pose proof (sN_range 4 n ltac:(lia)) as H. unfold in_signed in H.
  change (2 ^ (8 * Z.of_nat 4 - 1)) with 2147483648 in H.
  destruct (sN 4 n <? 0) eqn:E0; [discriminate|].
  destruct (sN 4 n >? as_limit o) eqn:E1; [discriminate|]. unfold x_bound. lia.
Qed.

Lemma x_betw lo hi z : lo <= z <= hi -> between lo hi z = true.
Proof. unfold between. lia. Qed.


Section Posts.
Context {X : Type} (D : dimpl X) (SL : Z).
Hypothesis Hi8 : post (in_signed 1) (d_readI8 D).
Hypothesis Hi16 : post (in_signed 2) (d_readI16 D).
Hypothesis Hi32 : post (in_signed 4) (d_readI32 D).
Hypothesis Hi64 : post (in_signed 8) (d_readI64 D).
Hypothesis Hdbl : post (fun z => 0 <= z < 2 ^ (8 * Z.of_nat 8)) (d_readDouble D).
Hypothesis Hstr : post (fun l => Z.of_nat (length l) <= SL) (d_readString D).
Hypothesis Huu : post (fun l => Z.of_nat (length l) = 16) (d_readUuid D).

Lemma x_base_post t : base_ty t = true ->
  post (fun v => x_base_ok SL t v = true) (decode_base D t).
Proof.
  intros Hb. destruct t; try discriminate Hb; cbn [decode_base].
  - apply post_then. intros b. apply post_ret. reflexivity.
  - eapply post_bind; [apply Hi8|]. intros z Hz. apply post_ret, x_betw.
    unfold in_signed in Hz. change (2 ^ (8 * Z.of_nat 1 - 1)) with 128 in Hz. lia.
  - eapply post_bind; [apply Hi16|]. intros z Hz. apply post_ret, x_betw.
    unfold in_signed in Hz. change (2 ^ (8 * Z.of_nat 2 - 1)) with 32768 in Hz. lia.
  - eapply post_bind; [apply Hi32|]. intros z Hz. apply post_ret, x_betw.
    unfold in_signed in Hz. change (2 ^ (8 * Z.of_nat 4 - 1)) with 2147483648 in Hz. lia.
  - eapply post_bind; [apply Hi64|]. intros z Hz. apply post_ret, x_betw.
    unfold in_signed in Hz.
    change (2 ^ (8 * Z.of_nat 8 - 1)) with 9223372036854775808 in Hz. lia.
  - eapply post_bind; [apply Hdbl|]. intros z Hz. cbn beta in Hz. apply post_ret, x_betw.
    change (2 ^ (8 * Z.of_nat 8)) with 18446744073709551616 in Hz. lia.
  - eapply post_bind; [apply Hstr|]. intros l Hl. apply post_ret. cbn beta in Hl.
    destruct (replace_scalar (length l) l ltac:(lia)) as [H1 H2].
    cbn [x_base_ok]. rewrite H1. cbn [andb]. lia.
  - eapply post_bind; [apply Hstr|]. intros l Hl. apply post_ret. cbn beta in Hl.
    cbn [x_base_ok base_okd]. unfold len_le. lia.
  - eapply post_bind; [apply Huu|]. intros l Hl. apply post_ret. cbn beta in Hl.
    cbn [x_base_ok base_okd]. lia.
Qed.
End Posts.

Lemma post_sN X A n (m : M X A) f : (0 < n)%nat ->
  post (in_signed n) (a <- m ;; ret (sN n (f a))).
Proof. intros Hn. apply post_then. intros a. apply post_ret, sN_range, Hn. Qed.

Lemma binary_fast_decoded big sl cl env n buf v rest :
  fast_deserialize (dbinary big sl cl) tt env n buf = Ok (v, rest) ->
  decoded env (fun t v => x_base_ok (x_bound sl) t v = true) (fun k => k <= x_bound cl)
    (TStruct n) v.
Proof.
  assert (HL : forall A (g : Z -> A) o, post (fun p => 0 <= snd p /\ snd p <= x_bound o)
     (len <- eb_readI32 big ;; checkLengthLimit len (as_limit o) ;;; ret (g len, len))).
  { intros A g o. eapply post_bind; [apply (post_sN _ _ 4); lia|]. intros z Hz.
    eapply post_bind; [apply post_limit|]. cbn beta. intros _ H.
    rewrite sN_id in H by (assumption || lia). apply post_ret. cbn [snd]. exact H. }
  apply (fast_decoded (dbinary big sl cl)).
  - intros t Hb. apply x_base_post; [| | | | | | |exact Hb].
    + apply (post_sN _ _ 1). lia.
    + apply (post_sN _ _ 2 _ (fun l => _)). lia.
    + apply (post_sN _ _ 4 _ (fun l => _)). lia.
    + apply (post_sN _ _ 8 _ (fun l => _)). lia.
    + apply post_then. intros z. apply post_ret, uN_range.
    + cbn. unfold eb_readString. eapply post_bind; [apply (post_sN _ _ 4 _ (fun l => _)); lia|].
      intros z Hz. eapply post_bind; [apply post_limit|]. cbn beta. intros _ H.
      rewrite sN_id in H by (assumption || lia).
      eapply post_mono; [|apply post_readBytes]. cbn beta. intros l Hl. lia.
    + intros s l s' E. cbn in E. unfold eb_readUuid in E.
      destruct (readBytes 16 s) as [[a|e|] s1] eqn:Er; try discriminate.
      assert (a = l) by congruence. subst. exact (post_readBytes _ 16 _ _ _ Er).
  - cbn. apply post_then. intros b. apply (HL Z (fun _ => b)).
  - cbn. apply post_then. intros b. apply post_then. intros b'. apply (HL (Z * Z)%type (fun _ => (b, b'))).
Qed.

Lemma compact_fast_decoded big sl cl env n x buf v rest :
  fast_deserialize (dcompact big sl cl) x env n buf = Ok (v, rest) ->
  decoded env (fun t v => x_base_ok (x_bound sl) t v = true) (fun k => k <= x_bound cl)
    (TStruct n) v.
Proof.
  apply (fast_decoded (dcompact big sl cl)).
  - intros t Hb. apply x_base_post; [| | | | | | |exact Hb].
    + apply (post_sN _ _ 1). lia.
    + apply (post_sN _ _ 2 _ (fun l => _)). lia.
    + apply (post_sN _ _ 4 _ (fun l => _)). lia.
    + apply (post_sN _ _ 8 _ (fun l => _)). lia.
    + apply post_then. intros z. apply post_ret, uN_range.
    + cbn. unfold ec_readString. apply post_then. intros z.
      eapply post_bind; [apply post_limit|]. cbn beta. intros _ H.
      destruct (z =? 0); [apply post_ret; cbn; lia|].
      eapply post_mono; [|apply post_readBytes]. cbn beta. intros l Hl. lia.
    + apply post_readBytes.
  - cbn. unfold ec_readListBegin. apply post_then. intros b. apply post_then. intros et.
    cbv zeta. apply post_then. intros z. eapply post_bind; [apply post_limit|].
    cbn beta. intros _ H. apply post_ret. cbn [snd]. lia.
  - cbn. unfold ec_readMapBegin. apply post_then. intros z.
    eapply post_bind; [apply post_limit|]. cbn beta. intros _ H.
    destruct (negb _); [|apply post_ret; cbn [snd]; lia].
    apply post_then. intros b. apply post_then. intros kt. apply post_then. intros vt.
    apply post_ret. cbn [snd]. lia.
Qed.
