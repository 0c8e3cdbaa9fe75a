(** C71: enum values in classes generated with the [enum] option. *)
From Coq Require Import String.
From Coq Require Import ZArith List Bool Lia ZifyBool ZifyNat.
From Coq Require Import Init.Byte.
From Verif Require Import Base Bytes Utf8 Proto Spec Laws RoundTrip StructFacts InstFacts
  Binary BinaryLaws SpecBinary Compact CompactLaws SpecCompact Json JsonText JsonFacts JsonLaws
  Dynamic Ext ExtRead.
From Verif Require Import GenClass SpecClass GenClassFacts GenClassRead GenClassWrite GenClassDec
  GenClassInst GenClassNames GenClassEnum PropsGenClass.
Import ListNotations.
Open Scope Z_scope.

(** * The Python reader *)

(** Any input, any protocol: what is read is what the program without the
    option reads, with members for the integers; or the reader raises
    ValueError. *)
Theorem C71_read_or_valueerror : forall {X} (P : proto X) p x0 n buf, prog_ok p ->
  gdeserialize p P x0 n buf = objects p n (deserialize P x0 (erased p) n buf)
  \/ (o_enum p = true /\ gdeserialize p P x0 n buf = Raise EValueError).
Proof.
  intros X P p x0 n buf Hok. unfold gdeserialize, deserialize, run, objects.
  destruct (gread_struct_sim p P Hok DFUEL (S (length buf)) n (mkst x0 buf [] 0))
    as [[Hs Hr]|[Ho H]].
  - left. destruct (gread_struct p P DFUEL (S (length buf)) n _) as [og sg].
    destruct (read_struct P (erased p) DFUEL (S (length buf)) n _) as [o s1].
    cbn [fst snd] in *. subst sg. destruct o as [v|e|], og as [x|e'|]; try contradiction.
    + destruct Hr as [-> _]. reflexivity.
    + rewrite Hr. reflexivity.
    + reflexivity.
  - right. split; [assumption|].
    destruct (gread_struct p P DFUEL (S (length buf)) n _) as [og sg]. cbn [fst] in H.
    subst og. reflexivity.
Qed.

Lemma gdeserialize_ok {X} (P : proto X) p x0 n buf x rest :
  gdeserialize p P x0 n buf = Ok (x, rest) ->
  exists s, gread_struct p P DFUEL (S (length buf)) n (mkst x0 buf [] 0) = (Ok x, s).
Proof.
  unfold gdeserialize, run. generalize (gread_struct p P DFUEL (S (length buf)) n) as m. intros m.
  destruct (m (mkst x0 buf [] 0)) as [[y|e|] s]; try discriminate. intros E. injection E as -> _. eauto.
Qed.

(** No object comes out with an enum value that is not a member of the enum,
    at any depth. *)
Theorem C71_read_members : forall {X} (P : proto X) p x0 n buf x rest,
  prog_ok p -> o_enum p = true -> defaults_ok p ->
  gdeserialize p P x0 n buf = Ok (x, rest) ->
  exists v, deserialize P x0 (erased p) n buf = Ok (v, rest)
    /\ x = lift p (GStruct n) v /\ enums_ok p (GStruct n) v = true.
Proof.
  intros X P p x0 n buf x rest Hok Ho Hd H.
  destruct (C71_read_or_valueerror P p x0 n buf Hok) as [E|[_ E]]; [|congruence].
  assert (Hm : members p (GStruct n) x = true).
  { apply gdeserialize_ok in H as (s & Er). exact (gread_struct_members p Ho Hok Hd P _ _ _ _ _ _ Er). }
  rewrite H in E. unfold objects in E.
  destruct (deserialize P x0 (erased p) n buf) as [[v r]|e|]; try discriminate E.
  injection E as -> ->. exists v. split; [reflexivity|]. split; [reflexivity|].
  apply enums_lift; assumption.
Qed.

(** If a value with a non-member in it is all there is to read, ValueError. *)
Theorem C71_read_rejects : forall {X} (P : proto X) p x0 n buf v rest,
  prog_ok p -> o_enum p = true -> defaults_ok p ->
  deserialize P x0 (erased p) n buf = Ok (v, rest) -> enums_ok p (GStruct n) v = false ->
  gdeserialize p P x0 n buf = Raise EValueError.
Proof.
  intros X P p x0 n buf v rest Hok Ho Hd E He.
  destruct (C71_read_or_valueerror P p x0 n buf Hok) as [H|[_ H]]; [|assumption].
  rewrite E in H. cbn [objects] in H.
  destruct (C71_read_members P p x0 n buf _ _ Hok Ho Hd H) as (w & E' & _ & Hw). congruence.
Qed.

(** * Two ends

    The writer [q] and the reader [p] agree on everything but enums: either may
    have the option or not, and the reader may know other members, an older
    version of the enum, say.  Values whose enum values the reader knows arrive;
    others are rejected as a whole. *)
Section Exchange.
Variables q p : gprog.
Hypothesis Hq : prog_ok q.
Hypothesis Hp : prog_ok p.
Hypothesis Hsame : erased q = erased p.
Hypothesis Ho : o_enum p = true.
Hypothesis Hdef : defaults_ok p.
Hypothesis Hschema : schema_ok (erased p).
Hypothesis Hclosed : schema_closed (erased p) = true.

Theorem C71_binary_exchange : forall cfW cfR SL CL n v tail, b_limits cfR SL CL ->
  wf (erased p) SL CL (TStruct n) v = true -> (sdepth v <= 64)%nat ->
  exists bs, gserialize q (binary cfW) tt n (lift q (GStruct n) v) = Ok bs
    /\ gdeserialize p (binary cfR) tt n (bs ++ tail)
       = if enums_ok p (GStruct n) v
         then Ok (lift p (GStruct n) (with_defaults (erased p) (TStruct n) v), tail)
         else Raise EValueError.
Proof.
  intros cfW cfR SL CL n v tail Hl Hwf Hd.
  destruct (binary_round_trip cfW cfR SL CL (erased p) n v tail Hschema Hclosed Hl Hwf Hd)
    as (bs & E1 & E2).
  exists bs. split.
  - rewrite C68_serialize; [rewrite Hsame; assumption|assumption|].
    eapply wf_shaped; [|reflexivity|rewrite Hsame; exact Hwf].
    intros k Hk f Hf. apply (Hq k Hk). assumption.
  - destruct (enums_ok p (GStruct n) v) eqn:Hen.
    + apply read_back; auto.
      assert (H := binary_serialize cfW SL CL (erased p) n v). rewrite H in E1; auto; try apply Hl.
      injection E1 as <-. eapply binary_no_valueerror; eauto.
    + eapply C71_read_rejects; eauto.
      destruct (enums_ok p (GStruct n) (with_defaults _ _ v)) eqn:E; [|reflexivity].
      rewrite (enums_defaults p v (GStruct n) E) in Hen. discriminate Hen.
Qed.

Theorem C71_compact_exchange : forall cfW cfR SL CL n v tail, c_limits cfR SL CL ->
  wf (erased p) SL CL (TStruct n) v = true -> (sdepth v <= 64)%nat ->
  exists bs, gserialize q (compact cfW) c_init n (lift q (GStruct n) v) = Ok bs
    /\ gdeserialize p (compact cfR) c_init n (bs ++ tail)
       = if enums_ok p (GStruct n) v
         then Ok (lift p (GStruct n) (with_defaults (erased p) (TStruct n) v), tail)
         else Raise EValueError.
Proof.
  intros cfW cfR SL CL n v tail Hl Hwf Hd.
  destruct (compact_round_trip cfW cfR SL CL (erased p) n v tail Hschema Hclosed Hl Hwf Hd)
    as (bs & E1 & E2).
  exists bs. split.
  - rewrite C68_serialize; [rewrite Hsame; assumption|assumption|].
    eapply wf_shaped; [|reflexivity|rewrite Hsame; exact Hwf].
    intros k Hk f Hf. apply (Hq k Hk). assumption.
  - destruct (enums_ok p (GStruct n) v) eqn:Hen.
    + apply read_back; auto.
      assert (H := compact_serialize cfW SL CL (erased p) n v). rewrite H in E1; auto; try apply Hl.
      injection E1 as <-. eapply compact_no_valueerror; eauto.
    + eapply C71_read_rejects; eauto.
      destruct (enums_ok p (GStruct n) (with_defaults _ _ v)) eqn:E; [|reflexivity].
      rewrite (enums_defaults p v (GStruct n) E) in Hen. discriminate Hen.
Qed.

Theorem C71_json_exchange : forall lW lR SL CL n v tail, j_limits lR SL CL ->
  wfd finite (erased p) SL CL (TStruct n) v = true -> (sdepth v <= 64)%nat ->
  exists bs, gserialize q (json lW) j_init n (lift q (GStruct n) v) = Ok bs
    /\ gdeserialize p (json lR) j_init n (bs ++ tail)
       = if enums_ok p (GStruct n) v
         then Ok (lift p (GStruct n) (with_defaults (erased p) (TStruct n) v), tail)
         else Raise EValueError.
Proof.
  intros lW lR SL CL n v tail Hl Hwf Hd.
  destruct (json_round_trip lW lR SL CL (erased p) n v tail Hschema Hclosed Hl Hwf Hd)
    as (bs & E1 & E2).
  exists bs. split.
  - rewrite C68_serialize; [rewrite Hsame; assumption|assumption|].
    eapply wf_shaped; [|reflexivity|rewrite Hsame; exact Hwf].
    intros k Hk f Hf. apply (Hq k Hk). assumption.
  - destruct (enums_ok p (GStruct n) v) eqn:Hen.
    + apply read_back; auto.
      assert (H := json_serialize lW SL CL (erased p) n v). rewrite H in E1; auto; try apply Hl.
      injection E1 as <-. eapply json_no_valueerror; eauto.
    + eapply C71_read_rejects; eauto.
      destruct (enums_ok p (GStruct n) (with_defaults _ _ v)) eqn:E; [|reflexivity].
      rewrite (enums_defaults p v (GStruct n) E) in Hen. discriminate Hen.
Qed.
End Exchange.

Lemma shop_defaults slots enum : defaults_ok (shop slots enum).
Proof.
  intros k f v Hk Hf Hd. cbn [shop p_classes In] in Hk.
  destruct Hk as [<-|[<-|[]]]; cbn [k_fields In] in Hf;
    repeat (destruct Hf as [<-|Hf]; [cbn in Hd; try discriminate Hd; injection Hd as <-; split; reflexivity|]);
    destruct Hf.
Qed.

(** One enum value changed, inside a list: the whole of it is rejected. *)
Definition odd_order : value :=
  VStruct 1 [Some (VList [VStruct 0 [Some (VStr [97]); None; Some (VInt 2)]]);
             Some (VMap [(VStr [104], VInt 1)])].
Example C71_exchange_used :
  erased (shop true false) = erased (shop false true)
  /\ enums_ok (shop false true) (GStruct 1) order = true
  /\ enums_ok (shop false true) (GStruct 1) odd_order = false
  /\ wf (erased (shop false true)) 1000 1000 (TStruct 1) odd_order = true
  /\ match gserialize (shop true false) (compact cdefault) c_init 1
            (lift (shop true false) (GStruct 1) odd_order) with
     | Ok bs => gdeserialize (shop false true) (compact cdefault) c_init 1 bs = Raise EValueError
                /\ gdeserialize (shop false false) (compact cdefault) c_init 1 bs
                   = Ok (lift (shop false false) (GStruct 1) odd_order, [])
     | _ => False
     end
  /\ match gserialize (shop true false) (compact cdefault) c_init 1
            (lift (shop true false) (GStruct 1) order) with
     | Ok bs => gdeserialize (shop false true) (compact cdefault) c_init 1 bs
                = Ok (lift (shop false true) (GStruct 1) order, [])
     | _ => False
     end.
Proof. vm_compute. auto 8. Qed.

(** A value can be replaced before the object is complete: a field sent twice,
    a non-member first.  ValueError even so. *)
Example C71_read_first_wins :
  gdeserialize (shop false true) (binary bdefault) tt 0
    [x08; x00; x03; x00; x00; x00; x02; x08; x00; x03; x00; x00; x00; x01; x00] = Raise EValueError
  /\ deserialize (binary bdefault) tt (erased (shop false true)) 0
       [x08; x00; x03; x00; x00; x00; x02; x08; x00; x03; x00; x00; x00; x01; x00]
     = Ok (VStruct 0 [None; None; Some (VInt 1)], []).
Proof. vm_compute. auto. Qed.

(** * Assigning and constructing

    [f] is declared with the enum type itself. *)
Section Assign.
Variables (p : gprog) (k : gclass) (f : gfield) (e : nat).
Hypothesis Ho : o_enum p = true.
Hypothesis Hk : plain k.
Hypothesis Hf : In f (k_fields k).
Hypothesis He : g_ty f = GEnum e false.

(** In a mutable class an int is replaced by the member with that value, at
    construction and on assignment; without such a member, neither succeeds. *)
Theorem C71_mutable_assign : forall a a' z, k_imm k = false ->
  setattr p k a (g_name f) (Some (PVal (VInt z))) = Ok a' ->
  assoc (g_name f) a' = Some (Some (PMember e z)) /\ is_member p e z = true.
Proof.
  intros a a' z Hi H. apply setattr_stored in H as (w & -> & Hw); auto.
  rewrite assoc_upd, String.eqb_refl. unfold stored, direct_enum in Hw.
  rewrite He, Hi in Hw. cbn [has_value] in Hw. destruct Hw as (m & Hm & ->).
  cbn [enum_call] in Hm. destruct (is_member p e z); [|discriminate Hm].
  injection Hm as <-. auto.
Qed.

Theorem C71_mutable_construct : forall kw a z, k_imm k = false ->
  assoc (g_name f) kw = Some (Some (PVal (VInt z))) -> construct p k kw = Ok a ->
  assoc (g_name f) a = Some (Some (PMember e z)) /\ is_member p e z = true.
Proof.
  intros kw a z Hi Ha H. eapply construct_stored in H as (w & Hw & Hs); eauto. rewrite Hw.
  unfold arg in Hs. rewrite (esc_plain k f Hk Hf), Ha in Hs.
  unfold stored, direct_enum in Hs. rewrite He, Hi in Hs. cbn [has_value] in Hs.
  destruct Hs as (m & Hm & ->).
  cbn [enum_call] in Hm. destruct (is_member p e z); [|discriminate Hm].
  injection Hm as <-. auto.
Qed.

(** In an immutable class an int is dropped, member or not (defect); the name of
    a member is replaced by the member. *)
Theorem C71_immutable_construct_loses : forall kw a z, k_imm k = true ->
  assoc (g_name f) kw = Some (Some (PVal (VInt z))) -> construct p k kw = Ok a ->
  assoc (g_name f) a = Some None.
Proof.
  intros kw a z Hi Ha H. eapply construct_stored in H as (w & Hw & Hs); eauto. rewrite Hw.
  unfold arg in Hs. rewrite (esc_plain k f Hk Hf), Ha in Hs.
  unfold stored, direct_enum in Hs. rewrite He, Hi in Hs. cbn [has_value members_get] in Hs.
  injection Hs as <-. reflexivity.
Qed.

(** A member is kept by both. *)
Theorem C71_member_kept : forall kw a z,
  assoc (g_name f) kw = Some (Some (PMember e z)) -> construct p k kw = Ok a ->
  assoc (g_name f) a = Some (Some (PMember e z)).
Proof.
  intros kw a z Ha H. eapply construct_stored in H as (w & Hw & Hs); eauto. rewrite Hw.
  unfold arg in Hs. rewrite (esc_plain k f Hk Hf), Ha in Hs.
  unfold stored, direct_enum in Hs. rewrite He in Hs. cbn [has_value] in Hs. subst w. reflexivity.
Qed.
End Assign.

(** Two classes with an enum field, one mutable, one not, and with an enum in a
    list and one behind a typedef. *)
Definition paint : gprog :=
  mkgprog false true
    [mkgenum "Color"%string [("RED"%string, 1); ("BLUE"%string, 4)]]
    [mkgclass "Mut"%string false false
       [mkgfield "c"%string 1 (GEnum 0 false) false None;
        mkgfield "l"%string 2 (GList false (GEnum 0 false)) false None;
        mkgfield "t"%string 3 (GEnum 0 true) false None];
     mkgclass "Imm"%string false true
       [mkgfield "c"%string 1 (GEnum 0 false) false None]].
Lemma paint_ok : prog_ok paint.
Proof.
  intros k Hk. cbn [paint p_classes In] in Hk.
  destruct Hk as [<-|[<-|[]]]; (split; [plain_names|split]).
  - intros H. discriminate H.
  - intros f Hf. cbn in Hf. destruct Hf as [<-|[<-|[<-|[]]]]; cbn; eauto.
  - intros _ n Hn. cbn in Hn |- *. intuition (subst; discriminate).
  - intros f Hf. cbn in Hf. destruct Hf as [<-|[]]; cbn; eauto.
Qed.
Definition mut : gclass := nth 0 (p_classes paint) (mkgclass "" false false []).
Definition imm : gclass := nth 1 (p_classes paint) (mkgclass "" false false []).

Example C71_assign_used :
  construct paint mut [("c"%string, Some (PVal (VInt 4)))]
  = Ok [("c", Some (PMember 0 4)); ("l", None); ("t", None)]%string
  /\ construct paint mut [("c"%string, Some (PVal (VInt 2)))] = Raise EValueError
  /\ setattr paint mut [("c"%string, None)] "c" (Some (PVal (VInt 1)))
     = Ok [("c"%string, Some (PMember 0 1))]
  /\ construct paint imm [("c"%string, Some (PVal (VInt 4)))] = Ok [("c"%string, None)]
  /\ construct paint imm [("c"%string, Some (PVal (VStr [82; 69; 68])))]
     = Ok [("c"%string, Some (PMember 0 1))]
  /\ construct paint mut [("c"%string, Some (PVal (VStr [82; 69; 68])))] = Raise EValueError.
Proof. vm_compute. auto 8. Qed.

(** * The C decoder *)

(** Where enums occur only as fields of mutable classes, declared with the enum
    type itself, it agrees with the Python reader. *)
Theorem C71_decode_or_valueerror : forall {X} (D : dimpl X) p x0 n buf,
  prog_ok p -> c_readable p ->
  gfast_deserialize p D x0 n buf = objects p n (fast_deserialize D x0 (erased p) n buf)
  \/ (o_enum p = true /\ gfast_deserialize p D x0 n buf = Raise EValueError).
Proof.
  intros X D p x0 n buf Hok Hc. unfold gfast_deserialize, fast_deserialize, run, objects.
  destruct (gdecode_struct_sim p D Hok Hc 66 true (S (length buf)) n (mkst x0 buf [] 0))
    as [[Hs Hr]|[Ho H]].
  - left. destruct (gdecode_struct p D true 66 (S (length buf)) n _) as [og sg].
    destruct (cread_struct D (erased p) 66 (S (length buf)) n _) as [o s1].
    cbn [fst snd] in *. subst sg. destruct o as [v|e|], og as [x|e'|]; try contradiction.
    + destruct Hr as [-> _]. reflexivity.
    + rewrite Hr. reflexivity.
    + reflexivity.
  - right. split; [assumption|].
    destruct (gdecode_struct p D true 66 (S (length buf)) n _) as [og sg]. cbn [fst] in H.
    subst og. reflexivity.
Qed.

Section Decoder.
Context {X : Type}.
Variable D : dimpl X.
Variables (p : gprog) (n : nat) (k : gclass).
Hypothesis Ho : o_enum p = true.
Hypothesis Ek : nth_error (p_classes p) n = Some k.
Hypothesis Hk : plain k.
Hypothesis Ht : typed k.

(** An enum field of a mutable class: a member, or the default. *)
Theorem C71_decode_mutable : forall f e top dfuel fuel s x s',
  k_imm k = false -> In f (k_fields k) -> g_ty f = GEnum e false ->
  gdecode_struct p D top dfuel fuel n s = (Ok x, s') ->
  exists a w, x = PObj n a /\ assoc (g_name f) a = Some w
    /\ (w = option_map (lift p (g_ty f)) (g_def f)
        \/ exists z, w = Some (PMember e z) /\ is_member p e z = true).
Proof.
  intros f e top dfuel fuel s x s' Hi Hf He H.
  eapply gdecode_struct_stored in H as (a & -> & H); eauto.
  destruct (H f Hf) as (w & Hw & Hs). exists a, w. split; [reflexivity|]. split; [assumption|].
  unfold stored, direct_enum in Hs. rewrite He, Hi in Hs.
  destruct Hs as [Hs|(y & Hy & Hs)].
  - left. rewrite He. destruct (Ht f Hf) as [_ Hd]. rewrite He in Hd.
    destruct (g_def f) as [v|]; [|exact Hs]. destruct Hd as [z ->].
    cbn [option_map lift] in Hs |- *. rewrite Ho in Hs |- *. exact Hs.
  - right. destruct Hy as (rs & fl & s1 & s2 & Hy).
    apply decoded_leaves in Hy. replace (leaves (GEnum e false) y) with [y] in Hy by (destruct y; reflexivity). apply Forall_inv in Hy as (z & ->).
    cbn [has_value] in Hs. destruct Hs as (m & Hm & ->). cbn [enum_call] in Hm.
    destruct (is_member p e z) eqn:E; [|discriminate Hm]. injection Hm as <-. eauto.
Qed.

(** An enum field of an immutable class never arrives, whatever the input: it is
    None, or the default (defect). *)
Theorem C71_decode_immutable_loses : forall f e top dfuel fuel s x s',
  k_imm k = true -> In f (k_fields k) -> g_ty f = GEnum e false ->
  gdecode_struct p D top dfuel fuel n s = (Ok x, s') ->
  exists a, x = PObj n a
    /\ (assoc (g_name f) a = Some None
        \/ assoc (g_name f) a = Some (option_map (lift p (g_ty f)) (g_def f))).
Proof.
  intros f e top dfuel fuel s x s' Hi Hf He H.
  eapply gdecode_struct_stored in H as (a & -> & H); eauto.
  destruct (H f Hf) as (w & Hw & Hs). exists a. split; [reflexivity|]. rewrite Hw.
  unfold stored, direct_enum in Hs. rewrite He, Hi in Hs.
  destruct Hs as [Hs|(y & Hy & Hs)].
  - right. f_equal. rewrite He. destruct (Ht f Hf) as [_ Hd]. rewrite He in Hd.
    destruct (g_def f) as [v|]; [|exact Hs]. destruct Hd as [z ->].
    cbn [option_map lift] in Hs |- *. rewrite Ho in Hs |- *. exact Hs.
  - left. destruct Hy as (rs & fl & s1 & s2 & Hy).
    apply decoded_leaves in Hy. replace (leaves (GEnum e false) y) with [y] in Hy by (destruct y; reflexivity). apply Forall_inv in Hy as (z & ->).
    cbn [has_value members_get] in Hs. injection Hs as <-. reflexivity.
Qed.

(** Enum values elsewhere, in a container or behind a typedef, are left plain
    ints, members or not; and the Python writer of the same class does not take
    what the decoder made (defect). *)
Theorem C71_decode_leaves_ints : forall f top dfuel fuel s x s' a y,
  In f (k_fields k) -> (forall e, g_ty f <> GEnum e false) ->
  gdecode_struct p D top dfuel fuel n s = (Ok x, s') ->
  x = PObj n a -> assoc (g_name f) a = Some (Some y) ->
  Some y = option_map (lift p (g_ty f)) (g_def f) \/ Forall plain_int (leaves (g_ty f) y).
Proof.
  intros f top dfuel fuel s x s' a y Hf He H -> Ha.
  eapply gdecode_struct_stored in H as (b & E & H); eauto. injection E as <-.
  destruct (H f Hf) as (w & Hw & Hs). rewrite Ha in Hw. injection Hw as <-.
  unfold stored in Hs.
  assert (Hd : direct_enum f = None).
  { unfold direct_enum. destruct (g_ty f) as [|e [|]| | | |] eqn:E; try reflexivity.
    exfalso. exact (He e eq_refl). }
  rewrite Hd in Hs. destruct Hs as [Hs|(z & (rs & fl & s1 & s2 & Hz) & Hs)]; [left; assumption|].
  injection Hs as ->. right. eapply decoded_leaves; eauto.
Qed.

Theorem C71_write_takes_members : forall {Y} (P : proto Y) f a y s u s',
  In f (k_fields k) -> assoc (g_name f) a = Some (Some y) ->
  gwrite p P (GStruct n) (PObj n a) s = (Ok u, s') -> Forall member (leaves (g_ty f) y).
Proof.
  intros Y P f a y s u s' Hf Ha H. eapply gwrite_object; eauto.
  rewrite (esc_plain k f Hk Hf). assumption.
Qed.

Theorem C71_decoded_write_fails :
  forall {Y} (P : proto Y) f top dfuel fuel s x s' a y s1 u s2,
  In f (k_fields k) -> (forall e, g_ty f <> GEnum e false) ->
  gdecode_struct p D top dfuel fuel n s = (Ok x, s') ->
  x = PObj n a -> assoc (g_name f) a = Some (Some y) ->
  Some y <> option_map (lift p (g_ty f)) (g_def f) -> leaves (g_ty f) y <> [] ->
  gwrite p P (GStruct n) x s1 <> (Ok u, s2).
Proof.
  intros Y P f top dfuel fuel s x s' a y s1 u s2 Hf He Hd -> Ha Hne Hl H.
  eapply C71_write_takes_members in H; [|exact Hf|exact Ha].
  destruct (C71_decode_leaves_ints f top dfuel fuel s _ s' a y Hf He Hd eq_refl Ha) as [Hi|Hi];
    [contradiction|].
  destruct (leaves (g_ty f) y) as [|z l]; [contradiction|].
  apply Forall_inv in H as (e & i & ->). apply Forall_inv in Hi as (j & Hi). discriminate Hi.
Qed.
End Decoder.

(** All of it on one message: c = BLUE, l = [RED], t = BLUE. *)
Definition paint_wire : list byte :=
  [x08; x00; x01; x00; x00; x00; x04;
   x0f; x00; x02; x08; x00; x00; x00; x01; x00; x00; x00; x01;
   x08; x00; x03; x00; x00; x00; x04; x00].
Example C71_decode_used :
  gdeserialize paint (binary bdefault) tt 0 paint_wire
  = Ok (PObj 0 [("c", Some (PMember 0 4)); ("l", Some (PList false [PMember 0 1]));
                ("t", Some (PMember 0 4))]%string, [])
  /\ gfast_deserialize paint (dbinary true None None) tt 0 paint_wire
     = Ok (PObj 0 [("c", Some (PMember 0 4)); ("l", Some (PList false [PVal (VInt 1)]));
                   ("t", Some (PVal (VInt 4)))]%string, [])
  /\ gserialize paint (binary bdefault) tt 0
       (PObj 0 [("c", Some (PMember 0 4)); ("l", Some (PList false [PVal (VInt 1)]));
                ("t", Some (PVal (VInt 4)))]%string) = Raise EAttributeError
  /\ gdeserialize paint (binary bdefault) tt 1
       [x08; x00; x01; x00; x00; x00; x04; x00]
     = Ok (PObj 1 [("c"%string, Some (PMember 0 4))], [])
  /\ gfast_deserialize paint (dbinary true None None) tt 1
       [x08; x00; x01; x00; x00; x00; x04; x00]
     = Ok (PObj 1 [("c"%string, None)], []).
Proof. vm_compute. auto 6. Qed.

(** The property a reader would expect, refuted: with the option the two
    readers of one class give the same object. *)
Theorem C71_readers_agree_refuted : exists p n bs x y,
  prog_ok p
  /\ gserialize p (binary bdefault) tt n x = Ok bs
  /\ gdeserialize p (binary bdefault) tt n bs = Ok (x, [])
  /\ gfast_deserialize p (dbinary true None None) tt n bs = Ok (y, []) /\ x <> y
  /\ gserialize p (binary bdefault) tt n y = Raise EAttributeError.
Proof.
  exists paint, 0%nat, paint_wire,
    (PObj 0 [("c", Some (PMember 0 4)); ("l", Some (PList false [PMember 0 1]));
             ("t", Some (PMember 0 4))]%string),
    (PObj 0 [("c", Some (PMember 0 4)); ("l", Some (PList false [PVal (VInt 1)]));
             ("t", Some (PVal (VInt 4)))]%string).
  split; [exact paint_ok|]. split; [vm_compute; reflexivity|]. split; [vm_compute; reflexivity|].
  split; [vm_compute; reflexivity|]. split; [discriminate|vm_compute; reflexivity].
Qed.

(** Such a program is outside [c_readable]; with the list and the typedef left
    out and no immutable class it is inside. *)
Example C71_c_readable_used :
  ~ c_readable paint
  /\ c_readable (mkgprog false true (p_enums paint)
       [mkgclass "Mut"%string false false [mkgfield "c"%string 1 (GEnum 0 false) false None]]).
Proof.
  split.
  - intros [H|H]; [discriminate H|].
    specialize (H mut (nth 1 (k_fields mut) (mkgfield "" 0 (GBase TI32) false None))).
    cbn in H. discriminate H; auto.
  - right. intros k f [<-|[]] [<-|[]]. reflexivity.
Qed.

(** Axioms used. *)
Print Assumptions C71_read_or_valueerror.
Print Assumptions C71_read_members.
Print Assumptions C71_read_rejects.
Print Assumptions C71_binary_exchange.
Print Assumptions C71_compact_exchange.
Print Assumptions C71_json_exchange.
Print Assumptions C71_mutable_assign.
Print Assumptions C71_mutable_construct.
Print Assumptions C71_immutable_construct_loses.
Print Assumptions C71_member_kept.
Print Assumptions C71_decode_or_valueerror.
Print Assumptions C71_decode_mutable.
Print Assumptions C71_decode_immutable_loses.
Print Assumptions C71_decode_leaves_ints.
Print Assumptions C71_write_takes_members.
Print Assumptions C71_decoded_write_fails.
Print Assumptions C71_readers_agree_refuted.
