(** The C decoder over a transport does what it does over memory. *)
From Coq Require Import ZArith List Bool Lia.
From Coq Require Import Init.Byte.
From Coq Require Import ZifyBool ZifyNat ZifyN.
From Verif Require Import Base Bytes Proto Dynamic Ext ExtRead Transport TransportFacts
  Zlib ZlibFacts ExtTransport.
From Verif Require Header.
Import ListNotations.
Open Scope Z_scope.

(** * The methods are those of ExtRead.v *)

Lemma gbinary_memory big sl cl : gbinary big sl cl readBytes = dbinary big sl cl.
Proof. reflexivity. Qed.
Lemma gcompact_memory big sl cl :
  gcompact big sl cl readBytes (fun x => x) (fun x _ => x) = dcompact big sl cl.
Proof. reflexivity. Qed.

(** * Simulation *)

(** [C] hands the decoder the bytes of [c] in order: a read takes what it asks
    for from the front, or [c] is too short and it raises an end of file. *)
Definition delivers {T} (C : creadable T) (R : T -> list byte -> Prop) : Prop :=
  forall t c len, R t c -> 0 <= len ->
  match c_readBytes C len t with
  | (Ok d, t') => len <= Z.of_nat (length c) /\ d = firstn (Z.to_nat len) c
                  /\ R t' (skipn (Z.to_nat len) c)
  | (Raise e, _) => Z.of_nat (length c) < len /\ eof_exn e
  | (Diverge, _) => False
  end.

(** The same with nothing said of reads past the end of [c]. *)
Definition delivers_within {T} (C : creadable T) (R : T -> list byte -> Prop) : Prop :=
  forall t c len, R t c -> 0 <= len -> len <= Z.of_nat (length c) ->
  exists t', c_readBytes C len t = (Ok (firstn (Z.to_nat len) c), t')
             /\ R t' (skipn (Z.to_nat len) c).

(** The exception of the memory buffer and that of the transport. *)
Definition same_exn (e e' : exn) : Prop := e' = e \/ e = EEOFError /\ eof_exn e'.

Section Sim.
Context {T X : Type}.
Variable C : creadable T.
Variable R : T -> list byte -> Prop.

Definition srel (s : st X) (s' : st (X * T)) : Prop :=
  fst (px s') = px s /\ depth s' = depth s /\ R (snd (px s')) (inp s).

(** When [strict] does not hold, only success is followed. *)
Variable strict : Prop.

Definition osim {A} (r : outcome A * st X) (r' : outcome A * st (X * T)) : Prop :=
  match r, r' with
  | (Ok a, s), (Ok b, s') => b = a /\ srel s s'
  | (Raise e, _), (Raise e', _) => strict -> same_exn e e'
  | (Diverge, _), (Diverge, _) => True
  | (Ok _, _), _ => False
  | _, _ => ~ strict
  end.

Definition msim {A} (m : M X A) (m' : M (X * T) A) : Prop :=
  forall s s', srel s s' -> osim (m s) (m' s').

Lemma sim_ret A (a : A) : msim (ret a) (ret a).
Proof. intros s s' H. split; [reflexivity|exact H]. Qed.
Lemma sim_raise A e : msim (A := A) (raise e) (raise e).
Proof. intros s s' H _. left. reflexivity. Qed.
Lemma sim_diverge A : msim (A := A) diverge diverge.
Proof. intros s s' H. exact I. Qed.
Lemma sim_bind A B (m : M X A) m' (k : A -> M X B) k' :
  msim m m' -> (forall a, msim (k a) (k' a)) -> msim (bind m k) (bind m' k').
Proof.
  intros Hm Hk s s' H. unfold bind. specialize (Hm s s' H).
  destruct (m s) as [[a|e|] s1]; destruct (m' s') as [[b|e'|] s1']; cbn [osim] in Hm;
    try contradiction; try exact Hm; try (destruct (k' b s1') as [[x|x|] y]; cbn [osim]; tauto).
  destruct Hm as [-> Hs]. exact (Hk a s1 s1' Hs).
Qed.
Lemma sim_repeat A fuel : forall n (f : A -> M X A) f' a,
  (forall a, msim (f a) (f' a)) -> msim (repeatM fuel n f a) (repeatM fuel n f' a).
Proof.
  induction fuel as [|k IH]; intros n f f' a Hf; cbn [repeatM];
    (destruct (n <=? 0); [apply sim_ret|]); [apply sim_diverge|].
  apply sim_bind; [apply Hf|]. intros b. apply IH, Hf.
Qed.
Lemma sim_finally A (m : M X A) m' f f' : msim m m' ->
  (forall s s', srel s s' -> srel (f s) (f' s')) ->
  msim (try_finally m f) (try_finally m' f').
Proof.
  intros Hm Hf s s' H. unfold try_finally. specialize (Hm s s' H).
  destruct (m s) as [[a|e|] s1]; destruct (m' s') as [[b|e'|] s1']; cbn [osim] in Hm |- *;
    try contradiction; try exact Hm.
  destruct Hm as [-> Hs]. split; [reflexivity|]. apply Hf, Hs.
Qed.
Lemma sim_guard A (m : M X A) m' : msim m m' -> msim (recursion_guard m) (recursion_guard m').
Proof.
  intros Hm s s' H. unfold recursion_guard. pose proof H as (H1 & H2 & H3). rewrite H2.
  destruct (depth s + 1 >? 64); [intros _; left; reflexivity|].
  apply sim_finally; [exact Hm| |].
  - intros a b (Ha & Hb & Hc). repeat split; cbn [px inp depth]; [exact Ha|lia|exact Hc].
  - repeat split; cbn [px inp depth]; auto.
Qed.
Lemma sim_if A (b : bool) (m n : M X A) m' n' : msim m m' -> msim n n' ->
  msim (if b then m else n) (if b then m' else n').
Proof. destruct b; auto. Qed.

Record dsim (D : dimpl X) (D' : dimpl (X * T)) : Prop := {
  s_bool : msim (d_readBool D) (d_readBool D');
  s_i8 : msim (d_readI8 D) (d_readI8 D');
  s_i16 : msim (d_readI16 D) (d_readI16 D');
  s_i32 : msim (d_readI32 D) (d_readI32 D');
  s_i64 : msim (d_readI64 D) (d_readI64 D');
  s_double : msim (d_readDouble D) (d_readDouble D');
  s_string : msim (d_readString D) (d_readString D');
  s_uuid : msim (d_readUuid D) (d_readUuid D');
  s_list : msim (d_readListBegin D) (d_readListBegin D');
  s_map : msim (d_readMapBegin D) (d_readMapBegin D');
  s_sbegin : msim (d_readStructBegin D) (d_readStructBegin D');
  s_send : forall s s', srel s s' -> srel (d_readStructEnd D s) (d_readStructEnd D' s');
  s_field : msim (d_readFieldBegin D) (d_readFieldBegin D');
  k_bool : msim (d_skipBool D) (d_skipBool D');
  k_byte : msim (d_skipByte D) (d_skipByte D');
  k_i16 : msim (d_skipI16 D) (d_skipI16 D');
  k_i32 : msim (d_skipI32 D) (d_skipI32 D');
  k_i64 : msim (d_skipI64 D) (d_skipI64 D');
  k_double : msim (d_skipDouble D) (d_skipDouble D');
  k_string : msim (d_skipString D) (d_skipString D');
  k_uuid : msim (d_skipUuid D) (d_skipUuid D') }.

Section Decoders.
Variable D : dimpl X.
Variable D' : dimpl (X * T).
Hypothesis HD : dsim D D'.

Lemma sim_scope A (m : M X A) m' : msim m m' -> msim (read_scope D m) (read_scope D' m').
Proof.
  intros H. unfold read_scope. apply sim_bind; [apply (s_sbegin _ _ HD)|]. intros _.
  apply sim_finally; [exact H|apply (s_send _ _ HD)].
Qed.

Lemma sim_skip_fields fuel : forall sk sk', (forall t, msim (sk t) (sk' t)) ->
  msim (cskip_fields D fuel sk) (cskip_fields D' fuel sk').
Proof.
  induction fuel as [|f IH]; intros sk sk' Hs; cbn [cskip_fields]; [apply sim_diverge|].
  apply sim_bind; [apply (s_field _ _ HD)|]. intros [type tag].
  apply sim_if; [apply sim_ret|]. apply sim_bind; [apply Hs|]. intros _. apply IH, Hs.
Qed.

Lemma sim_skip fuel dfuel : forall type, msim (cskip D fuel dfuel type) (cskip D' fuel dfuel type).
Proof.
  induction dfuel as [|k IH]; intros type; cbn [cskip]; [apply sim_diverge|].
  apply sim_guard. destruct HD.
  repeat (apply sim_if; [auto; fail|]).
  apply sim_if.
  { apply sim_bind; [auto|]. intros [et len]. apply sim_repeat. intros _. apply IH. }
  apply sim_if.
  { apply sim_bind; [auto|]. intros [[kt vt] len]. apply sim_repeat. intros _.
    apply sim_bind; [apply IH|]. intros _. apply IH. }
  apply sim_if.
  { apply sim_scope, sim_skip_fields. apply IH. }
  apply sim_if; [auto|apply sim_raise].
Qed.

Lemma sim_base t : msim (decode_base D t) (decode_base D' t).
Proof.
  destruct HD. destruct t; cbn [decode_base]; try apply sim_raise;
    (apply sim_bind; [auto|intros ?; apply sim_ret]).
Qed.

Lemma sim_map_begin : msim (map_begin D) (map_begin D').
Proof.
  intros s s' H. unfold map_begin. pose proof (s_map _ _ HD s s' H) as K.
  destruct (d_readMapBegin D s) as [[a|e|] s1];
    destruct (d_readMapBegin D' s') as [[b|e'|] s1']; cbn [osim] in K |- *;
    try contradiction; auto. intros _. left. reflexivity.
Qed.

Lemma sim_value rs rs' fuel : (forall n, msim (rs n) (rs' n)) -> forall t,
  msim (decodeValue D rs fuel t) (decodeValue D' rs' fuel t).
Proof.
  intros Hr t. induction t; cbn [decodeValue]; try apply (sim_base _); try apply Hr.
  - apply sim_bind; [apply (s_list _ _ HD)|]. intros [et len].
    apply sim_bind; [apply sim_if; [apply sim_raise|apply sim_ret]|]. intros _.
    apply sim_bind; [|intros l; apply sim_ret].
    apply sim_repeat. intros acc. apply sim_bind; [exact IHt|]. intros v. apply sim_ret.
  - apply sim_bind; [apply (s_list _ _ HD)|]. intros [et len].
    apply sim_bind; [apply sim_if; [apply sim_raise|apply sim_ret]|]. intros _.
    apply sim_bind; [|intros l; apply sim_if; [apply sim_ret|apply sim_raise]].
    apply sim_repeat. intros acc. apply sim_bind; [exact IHt|]. intros v. apply sim_ret.
  - apply sim_bind; [apply sim_map_begin|]. intros [[kt vt] len].
    apply sim_bind; [apply sim_if; [apply sim_raise|apply sim_ret]|]. intros _.
    apply sim_bind; [|intros l; apply sim_ret].
    apply sim_repeat. intros acc. apply sim_bind; [exact IHt1|]. intros k.
    apply sim_bind; [exact IHt2|]. intros v. apply sim_if; [apply sim_ret|apply sim_raise].
Qed.

Lemma sim_fields skfuel skdepth rv rv' spec : (forall t, msim (rv t) (rv' t)) ->
  forall fuel acc, msim (cread_fields D fuel skfuel skdepth rv spec acc)
                        (cread_fields D' fuel skfuel skdepth rv' spec acc).
Proof.
  intros Hv. induction fuel as [|f IH]; intros acc; cbn [cread_fields]; [apply sim_diverge|].
  apply sim_bind; [apply (s_field _ _ HD)|]. intros [type tag].
  apply sim_if; [apply sim_ret|].
  assert (Ha : msim (cskip D skfuel skdepth type ;;; cread_fields D f skfuel skdepth rv spec acc)
                    (cskip D' skfuel skdepth type ;;; cread_fields D' f skfuel skdepth rv' spec acc)).
  { apply sim_bind; [apply sim_skip|]. intros _. apply IH. }
  apply sim_if; [exact Ha|].
  destruct (nth_error spec (Z.to_nat tag)) as [[[i d]|]|]; [|exact Ha|exact Ha].
  apply sim_if; [exact Ha|]. apply sim_bind; [apply Hv|]. intros v. apply IH.
Qed.

Lemma sim_struct env fuel dfuel : forall n,
  msim (cread_struct D env dfuel fuel n) (cread_struct D' env dfuel fuel n).
Proof.
  induction dfuel as [|k IH]; intros n; cbn [cread_struct]; [apply sim_diverge|].
  destruct (nth_error env n) as [ds|]; [|apply sim_raise].
  apply sim_guard, sim_scope. apply sim_bind; [|intros acc; apply sim_ret].
  apply sim_fields. intros t. apply sim_value, IH.
Qed.
End Decoders.

Hypothesis HC : strict -> delivers C R.
Hypothesis HW : delivers_within C R.

Lemma sim_readBytes len : msim (readBytes len) (t_readBytes C len).
Proof.
  intros s s' (H1 & H2 & H3). unfold readBytes, t_readBytes.
  destruct (len <? 0) eqn:E.
  - unfold c_readBytes. rewrite E. intros _. left. reflexivity.
  - destruct (len <=? Z.of_nat (length (inp s))) eqn:L.
    + destruct (HW _ _ len H3 ltac:(lia) ltac:(lia)) as (t' & -> & Hr).
      split; [reflexivity|]. repeat split; cbn [px inp depth fst snd]; auto.
    + destruct (c_readBytes C len (snd (px s'))) as [[d|e|] t'] eqn:EC; cbn [osim]; intros K;
        specialize (HC K _ _ len H3 ltac:(lia)); rewrite EC in HC.
      * lia.
      * right. split; [reflexivity|apply HC].
      * exact HC.
Qed.
End Sim.

(** * The two protocols *)

Section Impl.
Context {T : Type}.
Variable C : creadable T.
Variable R : T -> list byte -> Prop.
Variable strict : Prop.
Hypothesis HC : strict -> delivers C R.
Hypothesis HW : delivers_within C R.
Variable big : bool.
Variables sl cl : option Z.

Ltac sims :=
  repeat first
    [ apply sim_ret | apply sim_raise | apply sim_diverge
    | apply (sim_readBytes C R strict HC HW) | assumption
    | apply sim_bind; [|intros ?] | apply sim_if ].

Lemma binary_sim : dsim R strict (dbinary big sl cl) (tbinary C big sl cl).
Proof.
  assert (U8 : msim R strict (X := unit) readU8 (g_readU8 (t_readBytes C))) by (unfold readU8, g_readU8; sims).
  assert (LL : forall n l, msim R strict (X := unit) (checkLengthLimit n l) (checkLengthLimit n l)).
  { intros n l. unfold checkLengthLimit. sims. }
  assert (I16 : msim R strict (eb_readI16 big) (gb_readI16 big (t_readBytes C)))
    by (unfold eb_readI16, gb_readI16; sims).
  assert (I32 : msim R strict (eb_readI32 big) (gb_readI32 big (t_readBytes C)))
    by (unfold eb_readI32, gb_readI32; sims).
  assert (I64 : msim R strict (eb_readI64 big) (gb_readI64 big (t_readBytes C)))
    by (unfold eb_readI64, gb_readI64; sims).
  assert (SK : forall n, msim R strict (X := unit) (SKIPBYTES n) (g_SKIPBYTES (t_readBytes C) n))
    by (intros n; unfold SKIPBYTES, g_SKIPBYTES; sims).
  constructor; cbn [dbinary tbinary gbinary d_readBool d_readI8 d_readI16 d_readI32 d_readI64
    d_readDouble d_readString d_readUuid d_readListBegin d_readMapBegin d_readStructBegin
    d_readStructEnd d_readFieldBegin d_skipBool d_skipByte d_skipI16 d_skipI32 d_skipI64
    d_skipDouble d_skipString d_skipUuid]; auto.
  all: try (unfold eb_readBool, gb_readBool, eb_readI8, gb_readI8, eb_readDouble, gb_readDouble,
    eb_readString, gb_readString, eb_readListBegin, gb_readListBegin, eb_readMapBegin,
    gb_readMapBegin, eb_readFieldBegin, gb_readFieldBegin, eb_skipString, gb_skipString;
    sims; auto; fail).
  intros s s' H. unfold eb_readUuid, gb_readUuid.
  pose proof (sim_readBytes (X := unit) C R strict HC HW 16 s s' H) as K.
  destruct (readBytes 16 s) as [[a|e|] s1];
    destruct (t_readBytes C 16 s') as [[b|e'|] s1']; cbn [osim] in K |- *;
    try contradiction; auto. intros _. left. reflexivity.
Qed.

Lemma varint_sim w max : forall shift val,
  msim R strict (cread_varint max w shift val) (g_varint (t_readBytes C) max w shift val).
Proof.
  assert (U8 : msim R strict (X := crd) readU8 (g_readU8 (t_readBytes C))) by (unfold readU8, g_readU8; sims).
  induction max as [|k IH]; intros shift val; cbn [cread_varint g_varint]; [sims|].
  sims. apply IH.
Qed.

Lemma compact_sim : dsim R strict (dcompact big sl cl) (tcompact C big sl cl).
Proof.
  unfold tcompact.
  assert (U8 : msim R strict (X := crd) readU8 (g_readU8 (t_readBytes C))) by (unfold readU8, g_readU8; sims).
  assert (LL : forall n l, msim R strict (X := crd) (checkLengthLimit n l) (checkLengthLimit n l)).
  { intros n l. unfold checkLengthLimit. sims. }
  assert (G : msim R strict (get_px (X := crd)) (g_get (Y := crd * T) fst)).
  { intros s s' H. split; [exact (proj1 H)|exact H]. }
  assert (P : forall x, msim R strict (set_px (X := crd) x) (g_set (Y := crd * T) (fun x y => (x, snd y)) x)).
  { intros x s s' (H1 & H2 & H3). split; [reflexivity|]. repeat split; auto. }
  assert (I16 : msim R strict ec_readI16 (gc_readI16 (t_readBytes C)))
    by (unfold ec_readI16, gc_readI16; sims; apply varint_sim).
  assert (I32 : msim R strict ec_readI32 (gc_readI32 (t_readBytes C)))
    by (unfold ec_readI32, gc_readI32; sims; apply varint_sim).
  assert (I64 : msim R strict ec_readI64 (gc_readI64 (t_readBytes C)))
    by (unfold ec_readI64, gc_readI64; sims; apply varint_sim).
  assert (SK : forall n, msim R strict (X := crd) (SKIPBYTES n) (g_SKIPBYTES (t_readBytes C) n))
    by (intros n; unfold SKIPBYTES, g_SKIPBYTES; sims).
  assert (TT : forall c, msim R strict (getTType c) (g_getTType c)) by (intros c; unfold getTType, g_getTType; sims).
  assert (B : msim R strict ec_readBool
    (gc_readBool (t_readBytes C) fst (fun x y => (x, snd y)))).
  { unfold ec_readBool, gc_readBool. apply sim_bind; [exact G|]. intros x.
    destruct (rbool x); sims. apply P. }
  assert (V := varint_sim).
  constructor; cbn [dcompact gcompact d_readBool d_readI8 d_readI16 d_readI32 d_readI64
    d_readDouble d_readString d_readUuid d_readListBegin d_readMapBegin d_readStructBegin
    d_readStructEnd d_readFieldBegin d_skipBool d_skipByte d_skipI16 d_skipI32 d_skipI64
    d_skipDouble d_skipString d_skipUuid]; auto.
  all: try (unfold ec_readI8, gc_readI8, ec_readDouble, gc_readDouble, ec_readUuid, gc_readUuid,
    ec_readString, gc_readString, ec_readListBegin, gc_readListBegin, ec_readMapBegin,
    gc_readMapBegin, ec_readStructBegin, gc_readStructBegin,
    ec_readFieldBegin, gc_readFieldBegin, ec_skipString, gc_skipString;
    sims; auto; fail).
  intros s s' (H1 & H2 & H3). unfold ec_readStructEnd, gc_readStructEnd.
  rewrite H1. repeat split; auto.
Qed.
End Impl.

(** * More fuel changes nothing *)

Section Fuel.
Context {X : Type}.
Variable D : dimpl X.

Definition upto {A} (m m' : M X A) : Prop := forall s, fst (m s) = Diverge \/ m s = m' s.

Lemma up_refl A (m : M X A) : upto m m.
Proof. intros s. right. reflexivity. Qed.
Lemma up_diverge A (m : M X A) : upto diverge m.
Proof. intros s. left. reflexivity. Qed.
Lemma up_bind A B (m m' : M X A) (k k' : A -> M X B) : upto m m' -> (forall a, upto (k a) (k' a)) ->
  upto (bind m k) (bind m' k').
Proof.
  intros Hm Hk s. unfold bind. destruct (Hm s) as [E|E].
  - left. destruct (m s) as [[a|e|] s1]; [discriminate E|discriminate E|reflexivity].
  - rewrite <- E. destruct (m s) as [[a|e|] s1]; [apply Hk|right; reflexivity|right; reflexivity].
Qed.
Lemma up_if A (b : bool) (m n m' n' : M X A) : upto m m' -> upto n n' ->
  upto (if b then m else n) (if b then m' else n').
Proof. destruct b; auto. Qed.
Lemma up_repeat A f : forall f' n (g g' : A -> M X A) a, (f <= f')%nat -> (forall a, upto (g a) (g' a)) ->
  upto (repeatM f n g a) (repeatM f' n g' a).
Proof.
  induction f as [|k IH]; intros [|k'] n g g' a Hf Hg; cbn [repeatM];
    (destruct (n <=? 0); [apply up_refl|]); try apply up_diverge; [lia|].
  apply up_bind; [apply Hg|]. intros b. apply IH; [lia|exact Hg].
Qed.
Lemma up_finally A (m m' : M X A) g : upto m m' -> upto (try_finally m g) (try_finally m' g).
Proof.
  intros H s. unfold try_finally. destruct (H s) as [E|E].
  - left. destruct (m s). exact E.
  - rewrite E. right. reflexivity.
Qed.
Lemma up_guard A (m m' : M X A) : upto m m' -> upto (recursion_guard m) (recursion_guard m').
Proof.
  intros H s. unfold recursion_guard. destruct (depth s + 1 >? 64); [right; reflexivity|].
  apply up_finally, H.
Qed.
Lemma up_scope A (m m' : M X A) : upto m m' -> upto (read_scope D m) (read_scope D m').
Proof. intros H. apply up_bind; [apply up_refl|]. intros _. apply up_finally, H. Qed.

Lemma up_skip_fields f : forall f' sk sk', (f <= f')%nat -> (forall t, upto (sk t) (sk' t)) ->
  upto (cskip_fields D f sk) (cskip_fields D f' sk').
Proof.
  induction f as [|k IH]; intros [|k'] sk sk' Hf Hs; cbn [cskip_fields]; try apply up_diverge; [lia|].
  apply up_bind; [apply up_refl|]. intros [type tag]. apply up_if; [apply up_refl|].
  apply up_bind; [apply Hs|]. intros _. apply IH; [lia|exact Hs].
Qed.
Lemma up_skip f f' d : (f <= f')%nat -> forall type, upto (cskip D f d type) (cskip D f' d type).
Proof.
  intros Hf. induction d as [|k IH]; intros type; cbn [cskip]; [apply up_refl|].
  apply up_guard. repeat (apply up_if; [apply up_refl|]).
  apply up_if.
  { apply up_bind; [apply up_refl|]. intros [et len]. apply up_repeat; [exact Hf|]. intros _. apply IH. }
  apply up_if.
  { apply up_bind; [apply up_refl|]. intros [[kt vt] len]. apply up_repeat; [exact Hf|]. intros _.
    apply up_bind; [apply IH|]. intros _. apply IH. }
  apply up_if; [|apply up_refl]. apply up_scope, up_skip_fields; [exact Hf|exact IH].
Qed.
Lemma up_value f f' rs rs' : (f <= f')%nat -> (forall n, upto (rs n) (rs' n)) -> forall t,
  upto (decodeValue D rs f t) (decodeValue D rs' f' t).
Proof.
  intros Hf Hr t. induction t; cbn [decodeValue]; try apply up_refl; try apply Hr.
  - apply up_bind; [apply up_refl|]. intros [et len]. apply up_bind; [apply up_refl|]. intros _.
    apply up_bind; [|intros l; apply up_refl]. apply up_repeat; [exact Hf|]. intros acc.
    apply up_bind; [exact IHt|]. intros v. apply up_refl.
  - apply up_bind; [apply up_refl|]. intros [et len]. apply up_bind; [apply up_refl|]. intros _.
    apply up_bind; [|intros l; apply up_refl]. apply up_repeat; [exact Hf|]. intros acc.
    apply up_bind; [exact IHt|]. intros v. apply up_refl.
  - apply up_bind; [apply up_refl|]. intros [[kt vt] len]. apply up_bind; [apply up_refl|]. intros _.
    apply up_bind; [|intros l; apply up_refl]. apply up_repeat; [exact Hf|]. intros acc.
    apply up_bind; [exact IHt1|]. intros k. apply up_bind; [exact IHt2|]. intros v. apply up_refl.
Qed.
Lemma up_fields sf sf' sd rv rv' spec : (sf <= sf')%nat -> (forall t, upto (rv t) (rv' t)) ->
  forall f f' acc, (f <= f')%nat ->
  upto (cread_fields D f sf sd rv spec acc) (cread_fields D f' sf' sd rv' spec acc).
Proof.
  intros Hs Hv. induction f as [|k IH]; intros [|k'] acc Hf; cbn [cread_fields];
    try apply up_diverge; [lia|].
  apply up_bind; [apply up_refl|]. intros [type tag]. apply up_if; [apply up_refl|].
  assert (Ha : upto (cskip D sf sd type ;;; cread_fields D k sf sd rv spec acc)
                    (cskip D sf' sd type ;;; cread_fields D k' sf' sd rv' spec acc)).
  { apply up_bind; [apply up_skip, Hs|]. intros _. apply IH. lia. }
  apply up_if; [exact Ha|].
  destruct (nth_error spec (Z.to_nat tag)) as [[[i d]|]|]; [|exact Ha|exact Ha].
  apply up_if; [exact Ha|]. apply up_bind; [apply Hv|]. intros v. apply IH. lia.
Qed.
Lemma up_struct env f f' d : (f <= f')%nat -> forall n,
  upto (cread_struct D env d f n) (cread_struct D env d f' n).
Proof.
  intros Hf. induction d as [|k IH]; intros n; cbn [cread_struct]; [apply up_refl|].
  destruct (nth_error env n) as [ds|]; [|apply up_refl].
  apply up_guard, up_scope. apply up_bind; [|intros acc; apply up_refl].
  apply up_fields; [exact Hf| |exact Hf]. intros t. apply up_value; [exact Hf|exact IH].
Qed.

Lemma more_fuel env n x0 buf fuel : (length buf < fuel)%nat ->
  fast_deserialize D x0 env n buf <> Diverge ->
  fast_deserialize D x0 env n buf
  = match cread_struct D env 66 fuel n (mkst x0 buf [] 0) with
    | (Ok v, s) => Ok (v, inp s)
    | (Raise e, _) => Raise e
    | (Diverge, _) => Diverge
    end.
Proof.
  intros Hf Hd. unfold fast_deserialize in *.
  destruct (up_struct env (S (length buf)) fuel 66 Hf n (mkst x0 buf [] 0)) as [E|E].
  - exfalso. apply Hd. destruct (cread_struct D env 66 (S (length buf)) n _) as [[a|e|] s];
      [discriminate E|discriminate E|reflexivity].
  - rewrite E. reflexivity.
Qed.
End Fuel.

(** * Reading structs *)

Definition read_same {T} (R : T -> list byte -> Prop) (r : outcome (value * list byte))
    (r' : outcome value * T) : Prop :=
  match r, r' with
  | Ok (v, rest), (Ok v', t') => v' = v /\ R t' rest
  | Raise e, (Raise e', _) => same_exn e e'
  | _, _ => False
  end.

Theorem fast_read_ok T X (R : T -> list byte -> Prop) (D : dimpl X) (D' : dimpl (X * T)) x0 env n
    fuel t c : dsim R True D D' -> R t c -> (length c < fuel)%nat ->
  fast_deserialize D x0 env n c <> Diverge ->
  read_same R (fast_deserialize D x0 env n c) (fast_read D' x0 env fuel n t).
Proof.
  intros HD HR Hf Hd. pose proof (more_fuel D env n x0 c fuel Hf Hd) as EF. rewrite EF in Hd |- *. clear EF.
  pose proof (sim_struct R True D D' HD env fuel 66 n (mkst x0 c [] 0) (mkst (x0, t) [] [] 0)) as H.
  specialize (H ltac:(repeat split; cbn [px inp depth fst snd]; exact HR)).
  unfold fast_read. revert Hd.
  destruct (cread_struct D env 66 fuel n _) as [[a|e|] s]; intros Hd; [| |congruence];
    destruct (cread_struct D' env 66 fuel n _) as [[b|e'|] s']; cbn [osim] in H;
    try tauto; cbn [read_same].
  - destruct H as [-> (_ & _ & H)]. auto.
Qed.

(** A struct that ends within [c]. *)
Theorem fast_read_within T X (R : T -> list byte -> Prop) (D : dimpl X) (D' : dimpl (X * T)) x0 env n
    fuel t c v rest : dsim R False D D' -> R t c -> (length c < fuel)%nat ->
  fast_deserialize D x0 env n c = Ok (v, rest) ->
  exists t', fast_read D' x0 env fuel n t = (Ok v, t') /\ R t' rest.
Proof.
  intros HD HR Hf Hd.
  pose proof (more_fuel D env n x0 c fuel Hf ltac:(congruence)) as EF. rewrite EF in Hd. clear EF.
  pose proof (sim_struct R False D D' HD env fuel 66 n (mkst x0 c [] 0) (mkst (x0, t) [] [] 0)) as H.
  specialize (H ltac:(repeat split; cbn [px inp depth fst snd]; exact HR)).
  unfold fast_read.
  destruct (cread_struct D env 66 fuel n _) as [[a|e|] s]; [|discriminate Hd..].
  injection Hd as -> <-.
  destruct (cread_struct D' env 66 fuel n _) as [[b|e'|] s']; cbn [osim] in H; [|contradiction..].
  destruct H as [-> (_ & _ & H)]. eauto.
Qed.

Lemma delivers_is_within T (C : creadable T) R : delivers C R -> delivers_within C R.
Proof.
  intros H t c len HR H0 Hl. specialize (H t c len HR H0).
  destruct (c_readBytes C len t) as [[d|e|] t']; [|lia|contradiction].
  destruct H as (_ & -> & H). eauto.
Qed.

(** The bytes already in the buffer, of any transport. *)
Lemma buffer_within T (C : creadable T) :
  (forall b t, c_buf C (c_setbuf C b t) = b) ->
  forall t0, (forall a b, c_setbuf C b (c_setbuf C a t0) = c_setbuf C b t0) ->
  delivers_within C (fun t c => t = c_setbuf C c t0).
Proof.
  intros H1 t0 H2 t c len -> H0 Hl. unfold c_readBytes. rewrite !H1.
  replace (len <? 0) with false by lia.
  replace (len <=? Z.of_nat (length c)) with true by lia.
  eexists. split; [reflexivity|]. apply H2.
Qed.

(** * The transports deliver *)

Lemma setbuf_id {T} (w : wrap T) : w_setbuf (w_rbuf w) w = w.
Proof. destruct w. reflexivity. Qed.

Section Deliver.
Context {T : Type}.
Variable U : transport T.
Variable R : T -> list byte -> Prop.
Hypothesis HS : stream R (t_read U).

(** What an empty wrapper must do when asked to refill; [K] says what is still
    to come from underneath. *)
Lemma wrap_delivers (K : wrap T -> list byte -> Prop) (rf : list byte -> Z -> SM (wrap T) (list byte)) :
  (forall w b c, K w c -> K (w_setbuf b w) c) ->
  (forall w c p req, K w c -> Z.of_nat (length p) < req ->
     match rf p req w with
     | (Ok _, w') => exists c', K w' c' /\ p ++ c = w_rbuf w' ++ c'
                                /\ req <= Z.of_nat (length (w_rbuf w'))
     | (Raise e, _) => Z.of_nat (length (p ++ c)) < req /\ eof_exn e
     | (Diverge, _) => False
     end) ->
  delivers (mkcreadable w_rbuf w_setbuf rf)
    (fun w c => exists c', K w c' /\ c = w_rbuf w ++ c').
Proof.
  intros HK HF w c len (c' & Hk & ->) Hlen. unfold c_readBytes.
  replace (len <? 0) with false by lia. cbn [c_buf c_setbuf c_refill].
  destruct (len <=? Z.of_nat (length (w_rbuf w))) eqn:E.
  - split; [rewrite app_length; lia|].
    rewrite firstn_app, skipn_app.
    replace (Z.to_nat len - length (w_rbuf w))%nat with 0%nat by lia.
    cbn [firstn skipn]. rewrite app_nil_r. split; [reflexivity|].
    exists c'. split; [apply HK, Hk|reflexivity].
  - specialize (HF (w_setbuf [] w) c' (w_rbuf w) len (HK _ _ _ Hk) ltac:(lia)).
    destruct (rf (w_rbuf w) len (w_setbuf [] w)) as [[q|e|] w'].
    + destruct HF as (c2 & Hk2 & Ec & Hl). rewrite Ec.
      replace (len <=? Z.of_nat (length (w_rbuf w'))) with true by lia.
      split; [rewrite app_length; lia|].
      rewrite firstn_app, skipn_app.
      replace (Z.to_nat len - length (w_rbuf w'))%nat with 0%nat by lia.
      cbn [firstn skipn]. rewrite app_nil_r. split; [reflexivity|].
      exists c2. split; [apply HK, Hk2|reflexivity].
    + exact HF.
    + exact HF.
Qed.

(** What will come out of a TBufferedTransport. *)
Definition bufrel (w : wrap T) (c : list byte) : Prop :=
  exists c', R (w_trans w) c' /\ c = w_rbuf w ++ c'.

Lemma buffered_delivers size : 0 < size -> delivers (creadable_buffered U size) bufrel.
Proof.
  intros Hs. apply (wrap_delivers (fun w c => R (w_trans w) c)); [auto|].
  intros [t rb wb] c p req HR Hp. cbn [w_trans] in HR.
  pose proof (buffered_refill_ok U R HS size t rb wb c p req HR Hp Hs) as H.
  destruct (buffered_refill U size p req _) as [[q|e|] w']; cbn [refilled] in H; [|exact H|exact H].
  destruct H as (c' & H1 & H2 & <- & _ & H3). exists c'. auto.
Qed.

(** What will come out of a TFramedTransport with [ps] to come: empty frames
    are passed over. *)
Definition frmrel (fuel : nat) (w : wrap T) (c : list byte) : Prop :=
  exists ps r, R (w_trans w) (concat (map frame ps) ++ r)
    /\ Forall (fun p => Z.of_nat (length p) < 2 ^ 31) ps /\ incomplete r
    /\ (length ps < fuel)%nat /\ c = w_rbuf w ++ concat ps.

Lemma framed_loop_any r wb : incomplete r -> forall fuel ps t rb p req,
  R t (concat (map frame ps) ++ r) -> Forall (fun p => Z.of_nat (length p) < 2 ^ 31) ps ->
  (length ps < fuel)%nat ->
  match framed_refill_loop U fuel p req (mkwrap t rb wb) with
  | (Ok q, s') => exists ps' ps2, ps = ps' ++ ps2 /\ q = p ++ concat ps'
      /\ R (w_trans s') (concat (map frame ps2) ++ r) /\ req <= Z.of_nat (length q)
  | (Raise e, _) => Z.of_nat (length (p ++ concat ps)) < req /\ eof_exn e
  | (Diverge, _) => False
  end.
Proof.
  intros Hr. induction fuel as [|f IH]; intros ps t rb p req HR Hps HF; [lia|].
  cbn [framed_refill_loop]. destruct (Z.of_nat (length p) <? req) eqn:E.
  - unfold bind. destruct ps as [|q ps].
    + cbn [map concat app] in HR.
      destruct (readFrame_short U R HS t rb wb r HR Hr) as (e & t' & -> & He & HR').
      cbn [concat]. rewrite app_nil_r. split; [lia|exact He].
    + inversion Hps as [|? ? Hq Hps']; subst.
      cbn [map concat] in HR. rewrite <- app_assoc in HR.
      destruct (readFrame_ok U R HS t rb wb q _ HR Hq) as (t' & -> & HR').
      cbn [w_rbuf]. cbn [length] in HF.
      specialize (IH ps t' q (p ++ q) req HR' Hps' ltac:(lia)).
      destruct (framed_refill_loop U f _ _ _) as [[w|e|] s'].
      * destruct IH as (ps' & ps2 & -> & -> & HR2 & Hl).
        exists (q :: ps'), ps2. cbn [concat app]. rewrite <- app_assoc in Hl |- *. auto.
      * destruct IH as (A & B). cbn [concat]. rewrite <- app_assoc in A. auto.
      * exact IH.
  - unfold ret. exists [], ps. cbn [app concat w_trans]. rewrite app_nil_r.
    repeat split; auto. lia.
Qed.

Lemma framed_delivers fuel : delivers (creadable_framed U fuel) (frmrel fuel).
Proof.
  pose (K := fun (w : wrap T) c => exists ps r, R (w_trans w) (concat (map frame ps) ++ r)
    /\ Forall (fun p => Z.of_nat (length p) < 2 ^ 31) ps /\ incomplete r
    /\ (length ps < fuel)%nat /\ c = concat ps).
  assert (H : delivers (creadable_framed U fuel)
    (fun w c => exists c', K w c' /\ c = w_rbuf w ++ c')).
  { apply wrap_delivers; [auto|].
    intros [t rb wb] c p req (ps & r & H1 & H2 & H3 & H4 & ->) Hp. cbn [w_trans] in H1.
    pose proof (framed_loop_any r wb H3 fuel ps t rb p req H1 H2 H4) as H.
    unfold framed_refill, bind.
    destruct (framed_refill_loop U fuel p req _) as [[q|e|] w']; [|exact H|exact H].
    destruct H as (ps' & ps2 & -> & -> & HR & Hl). unfold set_rbuf, ret. cbn [w_rbuf].
    exists (concat ps2). rewrite concat_app, app_assoc. split; [|split; [reflexivity|exact Hl]].
    exists ps2, r. cbn [w_trans]. rewrite app_length in H4.
    apply Forall_app in H2. repeat split; [exact HR|apply H2|exact H3|lia]. }
  intros w c len (ps & r & H1 & H2 & H3 & H4 & ->) Hlen.
  specialize (H w (w_rbuf w ++ concat ps) len).
  specialize (H (ex_intro _ (concat ps) (conj (ex_intro _ ps (ex_intro _ r
    (conj H1 (conj H2 (conj H3 (conj H4 eq_refl)))))) eq_refl)) Hlen).
  destruct (c_readBytes _ len w) as [[d|e|] w']; [|exact H|exact H].
  destruct H as (A & B & c' & (ps' & r' & H1' & H2' & H3' & H4' & ->) & E).
  split; [exact A|]. split; [exact B|]. exists ps', r'. auto.
Qed.

(** A TSaslClientTransport: the frames to come and what they unwrap to. *)
Variable unwrap : list byte -> outcome (list byte).
Definition saslrel (fuel : nat) (w : wrap T) (c : list byte) : Prop :=
  exists es ps r, R (w_trans w) (concat (map frame es) ++ r)
    /\ Forall2 (fun e p => Z.of_nat (length e) < 2 ^ 31 /\ unwrap e = Ok p) es ps
    /\ incomplete r /\ (length es < fuel)%nat /\ c = w_rbuf w ++ concat ps.

Lemma sasl_frame_eq t rb wb :
  sasl_read_frame U unwrap (mkwrap t rb wb)
  = match readFrame U (mkwrap t rb wb) with
    | (Ok _, w) => match unwrap (w_rbuf w) with
                   | Ok p => (Ok tt, w_setbuf p w)
                   | Raise e => (Raise e, w_setbuf rb w)
                   | Diverge => (Diverge, w_setbuf rb w)
                   end
    | (Raise e, w) => (Raise e, w)
    | (Diverge, w) => (Diverge, w)
    end.
Proof.
  unfold sasl_read_frame, readFrame, bind, on_trans, lift, set_rbuf, w_setbuf.
  cbn [w_trans w_rbuf w_wbuf].
  destruct (readAll_t (t_read U) 4 t) as [[h|e|] t1]; [|reflexivity|reflexivity].
  cbn [w_trans w_rbuf w_wbuf].
  destruct (readAll_t (t_read U) (unpack_signed 4 h) t1) as [[b|e|] t2];
    [|reflexivity|reflexivity]. cbn [w_trans w_rbuf w_wbuf].
  destruct (unwrap b); reflexivity.
Qed.

Lemma sasl_loop_any r wb : incomplete r -> forall fuel es ps t rb p req,
  R t (concat (map frame es) ++ r) ->
  Forall2 (fun e p => Z.of_nat (length e) < 2 ^ 31 /\ unwrap e = Ok p) es ps ->
  (length es < fuel)%nat ->
  match sasl_refill_loop U unwrap fuel p req (mkwrap t rb wb) with
  | (Ok q, s') => exists es' es2 ps' ps2, es = es' ++ es2 /\ ps = ps' ++ ps2 /\ q = p ++ concat ps'
      /\ Forall2 (fun e p => Z.of_nat (length e) < 2 ^ 31 /\ unwrap e = Ok p) es2 ps2
      /\ R (w_trans s') (concat (map frame es2) ++ r) /\ req <= Z.of_nat (length q)
  | (Raise e, _) => Z.of_nat (length (p ++ concat ps)) < req /\ eof_exn e
  | (Diverge, _) => False
  end.
Proof.
  intros Hr. induction fuel as [|f IH]; intros es ps t rb p req HR Hps HF; [lia|].
  cbn [sasl_refill_loop]. destruct (Z.of_nat (length p) <? req) eqn:E.
  - unfold bind. rewrite sasl_frame_eq. inversion Hps as [|q d es' ps' [Hq Hu] Hps' E1 E2].
    + subst. cbn [map concat app] in HR.
      destruct (readFrame_short U R HS t rb wb r HR Hr) as (e & t' & -> & He & HR').
      cbn [concat]. rewrite app_nil_r. split; [lia|exact He].
    + subst es ps. cbn [map concat] in HR. rewrite <- app_assoc in HR.
      destruct (readFrame_ok U R HS t rb wb q _ HR Hq) as (t' & -> & HR').
      cbn [w_rbuf]. rewrite Hu. unfold w_setbuf. cbn [w_rbuf w_trans w_wbuf].
      cbn [length] in HF.
      specialize (IH es' ps' t' d (p ++ d) req HR' Hps' ltac:(lia)).
      destruct (sasl_refill_loop U unwrap f _ _ _) as [[w|e|] s'].
      * destruct IH as (es1 & es2 & ps1 & ps2 & -> & -> & -> & HF2 & HR2 & Hl).
        exists (q :: es1), es2, (d :: ps1), ps2. cbn [concat app].
        rewrite <- app_assoc in Hl |- *. auto 10.
      * destruct IH as (A & B). cbn [concat]. rewrite <- app_assoc in A. auto.
      * exact IH.
  - unfold ret. exists [], es, [], ps. cbn [app concat w_trans]. rewrite app_nil_r.
    repeat split; auto. lia.
Qed.

Lemma sasl_delivers fuel : delivers (creadable_sasl U unwrap fuel) (saslrel fuel).
Proof.
  pose (K := fun (w : wrap T) c => exists es ps r, R (w_trans w) (concat (map frame es) ++ r)
    /\ Forall2 (fun e p => Z.of_nat (length e) < 2 ^ 31 /\ unwrap e = Ok p) es ps
    /\ incomplete r /\ (length es < fuel)%nat /\ c = concat ps).
  assert (H : delivers (creadable_sasl U unwrap fuel)
    (fun w c => exists c', K w c' /\ c = w_rbuf w ++ c')).
  { apply wrap_delivers; [auto|].
    intros [t rb wb] c p req (es & ps & r & H1 & H2 & H3 & H4 & ->) Hp. cbn [w_trans] in H1.
    pose proof (sasl_loop_any r wb H3 fuel es ps t rb p req H1 H2 H4) as H.
    unfold sasl_refill, bind.
    destruct (sasl_refill_loop U unwrap fuel p req _) as [[q|e|] w']; [|exact H|exact H].
    destruct H as (es' & es2 & ps' & ps2 & -> & -> & -> & HF & HR & Hl).
    unfold set_rbuf, ret. cbn [w_rbuf].
    exists (concat ps2). rewrite concat_app, app_assoc. split; [|split; [reflexivity|exact Hl]].
    exists es2, ps2, r. cbn [w_trans]. rewrite app_length in H4.
    repeat split; [exact HR|exact HF|exact H3|lia]. }
  intros w c len (es & ps & r & H1 & H2 & H3 & H4 & ->) Hlen.
  specialize (H w (w_rbuf w ++ concat ps) len).
  specialize (H (ex_intro _ (concat ps) (conj (ex_intro _ es (ex_intro _ ps (ex_intro _ r
    (conj H1 (conj H2 (conj H3 (conj H4 eq_refl))))))) eq_refl)) Hlen).
  destruct (c_readBytes _ len w) as [[d|e|] w']; [|exact H|exact H].
  destruct H as (A & B & c' & (es' & ps' & r' & H1' & H2' & H3' & H4' & ->) & E).
  split; [exact A|]. split; [exact B|]. exists es', ps', r'. auto 10.
Qed.
End Deliver.

(** * TZlibTransport *)

Section ZlibRefill.
Context {T D C : Type}.
Variable U : transport T.
Variable decompress : list byte -> Z -> SM D (list byte).
Variable tail : D -> list byte.
Variable max : Z.
Variable compress : list byte -> C -> list byte * C.
Variable cflush : C -> list byte * C.
Variable dec_init : D.
Variable comp_init : C.
Variable inflate : list byte -> list byte.
Variable valid : list byte -> Prop.
Variable Sd : D -> list byte -> Prop.
Variable Sc : C -> list byte -> list byte -> Prop.
Hypothesis HC : codec decompress tail compress cflush dec_init comp_init inflate valid Sd Sc.
Variable R : T -> list byte -> Prop.
Hypothesis HS : stream R (t_read U).
Hypothesis HE : forall t sz, R t [] -> 0 < sz ->
  exists e t', t_read U sz t = (Raise e, t') /\ eof_exn e /\ R t' [].

Notation rel rfuel := (z_rel (C := C) max inflate valid Sd R rfuel).

(** The buffer is replaced: what it held goes. *)
Lemma z_rel_setbuf rfuel z l b : rel rfuel z l ->
  exists l', l = z_rbuf z ++ l' /\ rel rfuel (z_setbuf b z) (b ++ l').
Proof.
  intros (before & rest & x & H1 & H2 & H3 & H4 & H5 & H6 & H7 & H8).
  exists x. split; [exact H7|]. exists before, rest, x. cbn. auto 10.
Qed.

Lemma z_read_nonempty rfuel z l sz : rel rfuel z l -> 0 < sz ->
  match z_read U decompress tail max rfuel sz z with
  | (Ok d, z') => exists l', l = d ++ l' /\ rel rfuel z' l' /\ d <> []
  | (Raise e, z') => l = [] /\ eof_exn e
  | (Diverge, _) => False
  end.
Proof.
  intros HR Hsz.
  pose proof (z_stream U decompress tail max compress cflush dec_init comp_init inflate valid Sd Sc
    HC R HS HE rfuel z l sz HR Hsz) as H.
  destruct (z_read U decompress tail max rfuel sz z) as [[d|e|] z'] eqn:EZ; [|destruct H as (A & B & _); auto|exact H].
  destruct H as (l' & A & B & _ & E). exists l'. split; [exact A|]. split; [exact B|].
  intros ->. cbn [app] in A. specialize (E eq_refl). rewrite E in A, HR. subst l'.
  (* nothing left: the read raises *)
  unfold z_read, bind in EZ.
  pose proof (zrbuf_rel max inflate valid Sd R rfuel sz z [] HR) as K.
  unfold zrbuf_read at 1 in EZ. unfold zrbuf_read in K.
  assert (Hb : z_rbuf z = []).
  { destruct HR as (before & rest & x & _ & _ & _ & _ & _ & _ & H7 & _).
    destruct (z_rbuf z); [reflexivity|discriminate H7]. }
  rewrite Hb in EZ, K. unfold bytesio_read in EZ, K. replace (sz <? 0) with false in EZ, K by lia.
  rewrite firstn_nil, skipn_nil in EZ, K. cbn [length] in EZ.
  change (0 <? Z.of_nat 0) with false in EZ. cbn iota in EZ.
  destruct K as (l1 & K1 & K2). destruct l1; [|discriminate K1].
  destruct K2 as (before & rest & x & H1 & H2 & H3 & H4 & H5 & H6 & H7 & H8).
  cbn [z_trans z_dec z_rbuf z_count app] in *. subst x.
  pose proof (comp_loop_ok U decompress tail max compress cflush dec_init comp_init inflate valid Sd Sc
    HC R HS HE rfuel sz Hsz rfuel
    (mkzt (z_trans z) [] (z_wbuf z) (z_dec z) (z_comp z) (z_count z)
      (z_in z) (z_in_comp z) (z_out z) (z_out_comp z))
    before rest [] H1 H2 H3 H4 H5 H6 eq_refl ltac:(lia)) as L.
  destruct (comp_loop U decompress tail max rfuel sz _) as [[u|e|] z2];
    [|discriminate EZ|discriminate EZ].
  destruct L as [(b2 & r2 & x2 & _ & _ & _ & _ & _ & _ & L7 & _) L2].
  destruct (z_rbuf z2); [apply L2; reflexivity|discriminate L7].
Qed.

Lemma z_refill_loop_ok rfuel : forall fuel z l p req, rel rfuel z l ->
  (Z.to_nat req < fuel + length p)%nat ->
  match z_refill_loop U decompress tail max fuel rfuel p req z with
  | (Ok q, z') => exists l', p ++ l = q ++ l' /\ rel rfuel z' l' /\ req <= Z.of_nat (length q)
  | (Raise e, _) => Z.of_nat (length (p ++ l)) < req /\ eof_exn e
  | (Diverge, _) => False
  end.
Proof.
  induction fuel as [|f IH]; intros z l p req HR HF; cbn [z_refill_loop];
    (destruct (Z.of_nat (length p) <? req) eqn:E;
     [|unfold ret; exists l; split; [reflexivity|]; split; [exact HR|lia]]); [lia|].
  unfold bind.
  pose proof (z_read_nonempty rfuel z l (req - Z.of_nat (length p)) HR ltac:(lia)) as H.
  destruct (z_read U decompress tail max rfuel (req - Z.of_nat (length p)) z) as [[d|e|] z1]; [| |exact H].
  - destruct H as (l1 & -> & HR1 & Hd).
    assert (Hl : (0 < length d)%nat) by (destruct d; [congruence|cbn; lia]).
    specialize (IH z1 l1 (p ++ d) req HR1 ltac:(rewrite app_length; lia)).
    rewrite app_assoc. exact IH.
  - destruct H as (-> & He). rewrite app_nil_r. split; [lia|exact He].
Qed.

(** The refill keeps what it returns and what has not been decompressed yet;
    what was decompressed and not returned is lost. *)
Theorem z_refill_ok rfuel fuel z l p req : rel rfuel z l ->
  Z.of_nat (length p) < req -> (Z.to_nat req < fuel)%nat ->
  match z_refill U decompress tail max fuel rfuel p req z with
  | (Ok q, z') => exists lost l', p ++ l = q ++ lost ++ l' /\ rel rfuel z' (q ++ l')
                    /\ z_rbuf z' = q /\ req <= Z.of_nat (length q)
  | (Raise e, _) => Z.of_nat (length (p ++ l)) < req /\ eof_exn e
  | (Diverge, _) => False
  end.
Proof.
  intros HR Hp HF. unfold z_refill, bind.
  assert (G : forall z l p, rel rfuel z l ->
    match (let (o, s') := z_refill_loop U decompress tail max fuel rfuel p req z in
           match o with
           | Ok r => (Ok r, z_setbuf r s')
           | Raise e => (Raise e, s')
           | Diverge => (Diverge, s')
           end) with
    | (Ok q, z') => exists lost l', p ++ l = q ++ lost ++ l' /\ rel rfuel z' (q ++ l')
                      /\ z_rbuf z' = q /\ req <= Z.of_nat (length q)
    | (Raise e, _) => Z.of_nat (length (p ++ l)) < req /\ eof_exn e
    | (Diverge, _) => False
    end).
  { intros z0 l0 p0 H0. pose proof (z_refill_loop_ok rfuel fuel z0 l0 p0 req H0 ltac:(lia)) as H.
    destruct (z_refill_loop U decompress tail max fuel rfuel p0 req z0) as [[q|e|] z1]; [|exact H|exact H].
    destruct H as (l1 & E & HR1 & Hl).
    destruct (z_rel_setbuf rfuel z1 l1 q HR1) as (l2 & -> & HR2).
    exists (z_rbuf z1), l2. auto. }
  destruct (req <? 4096) eqn:E.
  - pose proof (z_read_nonempty rfuel z l 4096 HR ltac:(lia)) as H.
    destruct (z_read U decompress tail max rfuel 4096 z) as [[d|e|] z1]; [| |exact H].
    + destruct H as (l1 & -> & HR1 & _). unfold ret. rewrite app_assoc. apply G, HR1.
    + destruct H as (-> & He). rewrite app_nil_r. split; [exact Hp|exact He].
  - unfold ret. apply G, HR.
Qed.
End ZlibRefill.

(** * THeaderTransport with an unframed peer *)

Section HeaderRefill.
Context {T : Type}.
Variable U : transport T.
Variable decompress : list byte -> Z -> option (list byte * list byte).
Variable allowed : list Z.
Variable R : T -> list byte -> Prop.
Hypothesis HS : stream R (t_read U).
Hypothesis HE : forall t sz, R t [] -> 0 < sz ->
  exists e t', t_read U sz t = (Raise e, t') /\ eof_exn e /\ R t' [].

Definition hrel (fuel : nat) (h : Header.hdr T) (c : list byte) : Prop :=
  Header.is_unframed (Header.h_client h) = true
  /\ exists c', R (Header.h_trans h) c' /\ c = Header.h_rbuf h ++ c' /\ (length c' + 1 < fuel)%nat.

Lemma header_refill_loop fuel : forall (h : Header.hdr T) c p req,
  Header.is_unframed (Header.h_client h) = true -> Header.h_rbuf h = [] ->
  R (Header.h_trans h) c -> (length c + 1 < fuel)%nat ->
  match Header.refill_loop U decompress allowed fuel p req h with
  | (Ok q, h') => exists c', p ++ c = q ++ c' /\ R (Header.h_trans h') c'
      /\ Header.is_unframed (Header.h_client h') = true /\ req <= Z.of_nat (length q)
      /\ (length c' <= length c)%nat
  | (Raise e, _) => Z.of_nat (length (p ++ c)) < req /\ eof_exn e
  | (Diverge, _) => False
  end.
Proof.
  induction fuel as [|f IH]; intros h c p req Hc Hb HR Hf; [lia|].
  cbn [Header.refill_loop]. destruct (Z.of_nat (length p) <? req) eqn:E.
  - unfold bind at 1. unfold Header.read. unfold bind at 1. unfold Header.hrbuf_read at 1.
    rewrite Hb. unfold bytesio_read.
    replace (req - Z.of_nat (length p) <? 0) with false by lia. rewrite firstn_nil, skipn_nil.
    cbn [length]. replace (req - Z.of_nat (length p) - Z.of_nat 0) with (req - Z.of_nat (length p)) by lia.
    replace (req - Z.of_nat (length p) =? 0) with false by lia.
    unfold bind. cbn [Header.with_rbuf Header.h_client]. rewrite Hc.
    unfold Header.on_h. cbn [Header.with_rbuf Header.h_trans].
    pose proof (HS _ c (req - Z.of_nat (length p)) HR ltac:(lia)) as H.
    destruct (t_read U (req - Z.of_nat (length p)) (Header.h_trans h)) as [[d|e|] t'] eqn:ER; [| |exact H].
    + destruct H as (c' & -> & HR' & Hl & Hd). unfold ret. cbn [app].
      assert (Nd : d <> []).
      { intros ->. specialize (Hd eq_refl). rewrite Hd in HR.
        destruct (HE _ (req - Z.of_nat (length p)) HR ltac:(lia)) as (e & t2 & E2 & _). congruence. }
      assert (Ld : (0 < length d)%nat) by (destruct d; [congruence|cbn; lia]).
      rewrite app_length in Hf.
      match goal with |- context [Header.refill_loop _ _ _ f _ _ ?h2] =>
        specialize (IH h2 c' (p ++ d) req) end.
      specialize (IH Hc eq_refl HR' ltac:(lia)).
      rewrite app_assoc.
      destruct (Header.refill_loop U decompress allowed f (p ++ d) req _) as [[q|e|] h2]; [|exact IH|exact IH].
      destruct IH as (c2 & A & B & C & F & G). exists c2. rewrite app_length. repeat split; auto. lia.
    + destruct H as (-> & He & _). rewrite app_nil_r. split; [lia|exact He].
  - unfold ret. exists c. repeat split; auto. lia.
Qed.

Lemma header_delivers fuel :
  delivers (creadable_header U decompress allowed fuel) (hrel fuel).
Proof.
  intros h c len (Hc & c' & HR & -> & Hf) Hlen. unfold c_readBytes.
  replace (len <? 0) with false by lia. cbn [creadable_header c_buf c_setbuf c_refill].
  destruct (len <=? Z.of_nat (length (Header.h_rbuf h))) eqn:E.
  - split; [rewrite app_length; lia|]. rewrite firstn_app, skipn_app.
    replace (Z.to_nat len - length (Header.h_rbuf h))%nat with 0%nat by lia.
    cbn [firstn skipn]. rewrite app_nil_r. split; [reflexivity|].
    split; [exact Hc|]. exists c'. auto.
  - unfold Header.refill, bind.
    pose proof (header_refill_loop fuel (Header.with_rbuf h []) c' (Header.h_rbuf h) len
      Hc eq_refl HR Hf) as H.
    destruct (Header.refill_loop U decompress allowed fuel (Header.h_rbuf h) len _) as [[q|e|] h'];
      [|exact H|exact H].
    destruct H as (c2 & Ec & HR2 & Hc2 & Hl & Hlen2). cbn [Header.with_rbuf Header.h_rbuf].
    replace (len <=? Z.of_nat (length q)) with true by lia. rewrite Ec.
    split; [rewrite app_length; lia|]. rewrite firstn_app, skipn_app.
    replace (Z.to_nat len - length q)%nat with 0%nat by lia.
    cbn [firstn skipn]. rewrite app_nil_r. split; [reflexivity|].
    split; [exact Hc2|]. exists c2. repeat split; auto. lia.
Qed.
End HeaderRefill.
