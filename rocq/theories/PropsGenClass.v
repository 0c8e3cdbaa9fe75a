(** C68: the classes the Python generator emits (GenClass.v), against the model
    of structs the rest of the development uses; and what becomes of fields
    whose names are keywords of Python. *)
From Coq Require Import String.
From Coq Require Import ZArith List Bool Lia ZifyBool ZifyNat.
From Coq Require Import Init.Byte.
From Verif Require Import Base Bytes Utf8 Proto Spec Laws RoundTrip StructFacts InstFacts
  Binary BinaryLaws SpecBinary Compact CompactLaws SpecCompact Json JsonText JsonFacts JsonLaws
  Dynamic Ext ExtRead.
From Verif Require Import GenClass SpecClass GenClassFacts GenClassRead GenClassWrite GenClassDec
  GenClassInst GenClassNames.
Import ListNotations.
Open Scope Z_scope.

(** The outcome of an operation of the model, with the objects of this program
    for its values. *)
Definition objects (p : gprog) (n : nat) (o : outcome (value * list byte))
  : outcome (pv * list byte) :=
  match o with
  | Ok (v, rest) => Ok (lift p (GStruct n) v, rest)
  | Raise e => Raise e
  | Diverge => Diverge
  end.

(** A program with a bit of everything: a mutable and an immutable class, one
    inside the other, an enum, containers. *)
Definition shop (slots enum : bool) : gprog :=
  mkgprog slots enum
    [mkgenum "Color"%string [("RED"%string, 1); ("BLUE"%string, 4)]]
    [mkgclass "Item"%string false true
       [mkgfield "name"%string 1 (GBase TString) true None;
        mkgfield "tags"%string 2 (GSet true (GBase TI32)) false None;
        mkgfield "color"%string 3 (GEnum 0 false) false (Some (VInt 4))];
     mkgclass "Order"%string false false
       [mkgfield "items"%string 1 (GList false (GStruct 0)) false None;
        mkgfield "colors"%string 3 (GMap false (GBase TString) (GEnum 0 false)) false None]].

Definition order : value :=
  VStruct 1 [Some (VList [VStruct 0 [Some (VStr [97]); Some (VSet [VInt 7; VInt 9]); Some (VInt 1)];
                          VStruct 0 [Some (VStr []); None; Some (VInt 4)]]);
             Some (VMap [(VStr [104], VInt 1)])].

Ltac plain_names :=
  split; [repeat constructor; cbn; intuition discriminate|];
  split; intros n Hn; cbn in Hn |- *; intuition (subst; discriminate).

Lemma shop_ok slots enum : prog_ok (shop slots enum).
Proof.
  intros k Hk. cbn [shop p_classes In] in Hk.
  destruct Hk as [<-|[<-|[]]]; (split; [plain_names|split]).
  - intros _ n Hn. cbn in Hn |- *. intuition (subst; discriminate).
  - intros f Hf. cbn in Hf. destruct Hf as [<-|[<-|[<-|[]]]]; cbn; eauto.
  - intros H. discriminate H.
  - intros f Hf. cbn in Hf. destruct Hf as [<-|[<-|[]]]; cbn; eauto.
Qed.

Example shop_schema : schema_ok (erased (shop true false)).
Proof.
  intros n ds H. destruct n as [|[|[|n]]]; cbn in H; try discriminate H; injection H as <-;
    (split; [repeat constructor; cbn; intuition discriminate|
             intros d Hd; cbn in Hd; intuition (subst; reflexivity)]).
Qed.
Example shop_order : wf (erased (shop true false)) 1000 1000 (TStruct 1) order = true.
Proof. vm_compute. reflexivity. Qed.

(** * Same behaviour as the plain model

    Field names pairwise different and none of them a keyword or the name of a
    method, nor, in an immutable class, one of the names its [read] uses: then
    for every protocol, every input and every state of the reader, mutable or
    not, with slots or not, the generated classes read what the model reads,
    fail as it fails, and leave the protocol in the same state. *)
Theorem C68_read : forall {X} (P : proto X) p dfuel fuel n s,
  prog_ok p -> o_enum p = false ->
  gread_struct p P dfuel fuel n s
  = match read_struct P (erased p) dfuel fuel n s with
    | (Ok v, s') => (Ok (lift p (GStruct n) v), s')
    | (Raise e, s') => (Raise e, s')
    | (Diverge, s') => (Diverge, s')
    end.
Proof.
  intros X P p dfuel fuel n s Hok Ho.
  destruct (gread_struct_sim p P Hok dfuel fuel n s) as [[Hs Hr]|[H _]]; [|congruence].
  destruct (gread_struct p P dfuel fuel n s) as [og sg].
  destruct (read_struct P (erased p) dfuel fuel n s) as [o s1]. cbn [fst snd] in *. subst sg.
  destruct o as [v|e|], og as [x|e'|]; try contradiction.
  - destruct Hr as [-> _]. reflexivity.
  - rewrite Hr. reflexivity.
  - reflexivity.
Qed.

Theorem C68_deserialize : forall {X} (P : proto X) p x0 n buf,
  prog_ok p -> o_enum p = false ->
  gdeserialize p P x0 n buf = objects p n (deserialize P x0 (erased p) n buf).
Proof.
  intros X P p x0 n buf Hok Ho. unfold gdeserialize, deserialize, run, objects.
  rewrite C68_read by assumption.
  destruct (read_struct P (erased p) DFUEL (S (length buf)) n _) as [[v|e|] s]; reflexivity.
Qed.

(** Writing an object that stands for [v]; with the [enum] option, too.  The
    leaves of [v] need not fit their types. *)
Theorem C68_serialize : forall {X} (P : proto X) p x0 n v,
  prog_ok p -> shaped p (GStruct n) v = true ->
  gserialize p P x0 n (lift p (GStruct n) v) = serialize P x0 (erased p) n v.
Proof.
  intros X P p x0 n v Hok Hs. unfold gserialize, serialize, run, write_struct.
  rewrite (gwrite_lift p P) with (v := v) (t := GStruct n); auto.
  - intros k Hk. apply (Hok k Hk).
  - intros k Hk f Hf. apply (Hok k Hk). assumption.
Qed.

(** The C encoder. *)
Theorem C68_fast_serialize : forall big p n fs k, prog_ok p ->
  nth_error (p_classes p) n = Some k -> shaped p (GStruct n) (VStruct n fs) = true ->
  gfast_serialize p (cbinary big) tt n (lift_fields p fs (k_fields k))
  = fast_serialize (cbinary big) tt (erased p) n (VStruct n fs)
  /\ gfast_serialize p (ccompact big) [] n (lift_fields p fs (k_fields k))
     = fast_serialize (ccompact big) [] (erased p) n (VStruct n fs).
Proof.
  intros. split; apply fast_serialize_any; auto; [apply field_ok_binary|apply field_ok_compact].
Qed.

(** The C decoder. *)
Theorem C68_fast_deserialize : forall {X} (D : dimpl X) p x0 n buf,
  prog_ok p -> o_enum p = false ->
  gfast_deserialize p D x0 n buf = objects p n (fast_deserialize D x0 (erased p) n buf).
Proof.
  intros X D p x0 n buf Hok Ho. unfold gfast_deserialize, fast_deserialize, run, objects.
  destruct (gdecode_struct_sim p D Hok (or_introl Ho) 66 true (S (length buf)) n
              (mkst x0 buf [] 0)) as [[Hs Hr]|[H _]]; [|congruence].
  destruct (gdecode_struct p D true 66 (S (length buf)) n _) as [og sg].
  destruct (cread_struct D (erased p) 66 (S (length buf)) n _) as [o s1].
  cbn [fst snd] in *. subst sg.
  destruct o as [v|e|], og as [x|e'|]; try contradiction.
  - destruct Hr as [-> _]. reflexivity.
  - rewrite Hr. reflexivity.
  - reflexivity.
Qed.

(** The [slots] option makes no difference to what is read or written. *)
Theorem C68_slots_unobservable : forall {X} (P : proto X) x0 enums classes n buf v,
  let p s := mkgprog s false enums classes in
  prog_ok (p true) -> shaped (p true) (GStruct n) v = true ->
  gdeserialize (p true) P x0 n buf = gdeserialize (p false) P x0 n buf
  /\ gserialize (p true) P x0 n (lift (p true) (GStruct n) v)
     = gserialize (p false) P x0 n (lift (p false) (GStruct n) v).
Proof.
  intros X P x0 enums classes n buf v p Hok Hs.
  assert (Hok' : prog_ok (p false)) by exact Hok.
  assert (Hs' : shaped (p false) (GStruct n) v = true)
    by (rewrite <- Hs; apply shaped_classes; reflexivity).
  split.
  - rewrite !C68_deserialize by auto. change (erased (p true)) with (erased (p false)).
    unfold objects. reflexivity.
  - rewrite !C68_serialize by auto. reflexivity.
Qed.

(** * Round trips *)

Section RoundTrips.
Variable p : gprog.
Hypothesis Hok : prog_ok p.
Hypothesis Hschema : schema_ok (erased p).
Hypothesis Hclosed : schema_closed (erased p) = true.

(** What is written is read back, with the defaults the schema gives to what
    was left out, and the rest of the input is left alone.  The hypothesis on
    enums says that enum values are members, with or without the [enum]
    option. *)
Theorem C68_binary_round_trip : forall cfW cfR SL CL n v tail, b_limits cfR SL CL ->
  wf (erased p) SL CL (TStruct n) v = true -> (sdepth v <= 64)%nat ->
  enums_ok p (GStruct n) v = true ->
  exists bs, gserialize p (binary cfW) tt n (lift p (GStruct n) v) = Ok bs
    /\ gdeserialize p (binary cfR) tt n (bs ++ tail)
       = Ok (lift p (GStruct n) (with_defaults (erased p) (TStruct n) v), tail).
Proof.
  intros cfW cfR SL CL n v tail Hl Hwf Hd Hen.
  destruct (binary_round_trip cfW cfR SL CL (erased p) n v tail Hschema Hclosed Hl Hwf Hd)
    as (bs & E1 & E2).
  exists bs. split.
  - rewrite C68_serialize; auto. eapply wf_shaped; [|reflexivity|exact Hwf].
    intros k Hk f Hf. apply (Hok k Hk). assumption.
  - apply read_back; auto.
    assert (H := binary_serialize cfW SL CL (erased p) n v). rewrite H in E1; auto; try apply Hl.
    injection E1 as <-. eapply binary_no_valueerror; eauto.
Qed.

Theorem C68_compact_round_trip : forall cfW cfR SL CL n v tail, c_limits cfR SL CL ->
  wf (erased p) SL CL (TStruct n) v = true -> (sdepth v <= 64)%nat ->
  enums_ok p (GStruct n) v = true ->
  exists bs, gserialize p (compact cfW) c_init n (lift p (GStruct n) v) = Ok bs
    /\ gdeserialize p (compact cfR) c_init n (bs ++ tail)
       = Ok (lift p (GStruct n) (with_defaults (erased p) (TStruct n) v), tail).
Proof.
  intros cfW cfR SL CL n v tail Hl Hwf Hd Hen.
  destruct (compact_round_trip cfW cfR SL CL (erased p) n v tail Hschema Hclosed Hl Hwf Hd)
    as (bs & E1 & E2).
  exists bs. split.
  - rewrite C68_serialize; auto. eapply wf_shaped; [|reflexivity|exact Hwf].
    intros k Hk f Hf. apply (Hok k Hk). assumption.
  - apply read_back; auto.
    assert (H := compact_serialize cfW SL CL (erased p) n v). rewrite H in E1; auto; try apply Hl.
    injection E1 as <-. eapply compact_no_valueerror; eauto.
Qed.

Theorem C68_json_round_trip : forall lW lR SL CL n v tail, j_limits lR SL CL ->
  wfd finite (erased p) SL CL (TStruct n) v = true -> (sdepth v <= 64)%nat ->
  enums_ok p (GStruct n) v = true ->
  exists bs, gserialize p (json lW) j_init n (lift p (GStruct n) v) = Ok bs
    /\ gdeserialize p (json lR) j_init n (bs ++ tail)
       = Ok (lift p (GStruct n) (with_defaults (erased p) (TStruct n) v), tail).
Proof.
  intros lW lR SL CL n v tail Hl Hwf Hd Hen.
  destruct (json_round_trip lW lR SL CL (erased p) n v tail Hschema Hclosed Hl Hwf Hd)
    as (bs & E1 & E2).
  exists bs. split.
  - rewrite C68_serialize; auto. eapply wf_shaped; [|reflexivity|exact Hwf].
    intros k Hk f Hf. apply (Hok k Hk). assumption.
  - apply read_back; auto.
    assert (H := json_serialize lW SL CL (erased p) n v). rewrite H in E1; auto; try apply Hl.
    injection E1 as <-. eapply json_no_valueerror; eauto.
Qed.

End RoundTrips.

Example C68_round_trip_used :
  match gserialize (shop true false) (binary bdefault) tt 1
          (lift (shop true false) (GStruct 1) order) with
  | Ok bs => gdeserialize (shop true false) (binary bdefault) tt 1 bs
             = Ok (lift (shop true false) (GStruct 1) order, [])
  | _ => False
  end
  /\ match gserialize (shop false true) (compact cdefault) c_init 1
            (lift (shop false true) (GStruct 1) order) with
     | Ok bs => gdeserialize (shop false true) (compact cdefault) c_init 1 bs
                = Ok (lift (shop false true) (GStruct 1) order, [])
     | _ => False
     end
  /\ enums_ok (shop true true) (GStruct 1) order = true
  /\ schema_closed (erased (shop true true)) = true.
Proof. vm_compute. auto. Qed.

(** * Names *)

(** The keywords of Python 3 that are not escaped.  ([async] does not get here:
    the IDL has it as a keyword of its own, thriftl.ll 245.) *)
Theorem C68_unescaped_keywords : forall n, In n kwlist ->
  (maybe_escape_identifier n = n <-> n = "async"%string \/ n = "await"%string).
Proof.
  intros n H. cbn [kwlist In] in H.
  repeat (destruct H as [<-|H];
    [vm_compute; split; [intros E; try discriminate E; auto|intros [E|E]; try discriminate E; reflexivity]|]).
  destruct H.
Qed.

(** Nothing else is renamed, but what were keywords in Python 2. *)
Theorem C68_escape_keywords_only : forall n, maybe_escape_identifier n <> n ->
  In n kwlist \/ In n ["exec"; "print"]%string.
Proof.
  intros n H. unfold maybe_escape_identifier in H.
  destruct (mem n python_keywords_) eqn:E; [|contradiction].
  apply mem_In in E. cbn [python_keywords_ In] in E.
  repeat (destruct E as [<-|E]; [cbn; tauto|]). destruct E.
Qed.

(** No escaped name is a keyword of Python, as long as it is not [await]. *)
Theorem C68_escape_safe : forall n, n <> "async"%string -> n <> "await"%string ->
  ~ In (maybe_escape_identifier n) kwlist.
Proof.
  intros n H1 H2 H. unfold maybe_escape_identifier in H.
  destruct (mem n python_keywords_) eqn:E.
  - apply mem_In in E. cbn [python_keywords_ In] in E.
    repeat (destruct E as [<-|E];
      [apply mem_In in H; vm_compute in H; discriminate H|]). destruct E.
  - apply mem_not in E. apply E.
    cbn [kwlist In] in H. repeat (destruct H as [<-|H]; [try congruence; cbn; tauto|]). destruct H.
Qed.

(** Two fields get the same name only if one is a keyword and the other that
    keyword with an underscore. *)
Theorem C68_escape_injective : forall n m,
  maybe_escape_identifier n = maybe_escape_identifier m -> n <> m ->
  (In n python_keywords_ /\ m = (n ++ "_")%string)
  \/ (In m python_keywords_ /\ n = (m ++ "_")%string).
Proof.
  intros n m. unfold maybe_escape_identifier.
  destruct (mem n python_keywords_) eqn:En, (mem m python_keywords_) eqn:Em; intros H Hne.
  - exfalso. apply Hne. clear - H. revert m H.
    induction n as [|c n IH]; intros [|d m] H; cbn [append] in H.
    + reflexivity.
    + injection H as _ H. destruct m; discriminate H.
    + injection H as _ H. destruct n; discriminate H.
    + injection H as -> H. f_equal. apply IH. assumption.
  - left. split; [apply mem_In; assumption|symmetry; assumption].
  - right. split; [apply mem_In; assumption|assumption].
  - contradiction.
Qed.
Theorem C68_escape_clash_refuted : exists n m,
  n <> m /\ maybe_escape_identifier n = maybe_escape_identifier m.
Proof. exists "from"%string, "from_"%string. split; [discriminate|reflexivity]. Qed.

(** * Fields whose name is a keyword

    Below, [f] is a field of class [k] with such a name, and no field has the
    name the generator makes of it.  No Python code can say [x.from]: what it
    can say is [x.from_]. *)
Definition keyword_field (k : gclass) (f : gfield) : Prop :=
  In f (k_fields k) /\ In (g_name f) python_keywords_
  /\ ~ In (maybe_escape_identifier (g_name f)) (names k).

(** Mutable, with slots: the class cannot be instantiated (defect). *)
Theorem C68_keyword_slots_fails : forall p k f kw a,
  o_slots p = true -> k_exc k = false -> k_imm k = false -> keyword_field k f ->
  construct p k kw <> Ok a.
Proof.
  intros p k f kw a Hs He Hi (Hf & _ & Hn) H. apply construct_init in H.
  eapply init_slots_fails; eauto.
Qed.

(** Immutable: no object the constructor makes can be written (defect), *)
Theorem C68_keyword_immutable_write_fails : forall {X} (P : proto X) p n k f kw a s u s',
  nth_error (p_classes p) n = Some k -> k_imm k = true -> keyword_field k f ->
  construct p k kw = Ok a -> gwrite p P (GStruct n) (PObj n a) s <> (Ok u, s').
Proof.
  intros X P p n k f kw a s u s' Ek Hi (Hf & _ & Hn) Hc H.
  eapply gwrite_missing in H; eauto. apply (imm_missing p k f kw a); auto.
Qed.

(** with the C encoder neither, if the field is required, *)
Theorem C68_keyword_immutable_validate_fails : forall {X} (I : cimpl X) p n k f kw a s u s',
  nth_error (p_classes p) n = Some k -> k_imm k = true -> keyword_field k f ->
  g_req f = true ->
  construct p k kw = Ok a -> gfast_write p I n a s <> (Ok u, s').
Proof.
  intros X I p n k f kw a s u s' Ek Hi (Hf & _ & Hn) Hr Hc H.
  eapply gfast_missing in H; eauto. apply (imm_missing p k f kw a); auto.
Qed.

(** nor can it be hashed. *)
Theorem C68_keyword_immutable_hash_fails : forall p vh ch th n k f kw a h,
  nth_error (p_classes p) n = Some k -> k_imm k = true -> keyword_field k f ->
  construct p k kw = Ok a -> obj_hash p vh ch th n a <> Ok h.
Proof.
  intros p vh ch th n k f kw a h Ek Hi (Hf & _ & Hn) Hc H.
  eapply hash_missing in H; eauto. apply (imm_missing p k f kw a); auto.
Qed.

(** Mutable: the C encoder does not find the attribute (defect). *)
Theorem C68_keyword_encode_fails : forall {X} (I : cimpl X) p n k f kw a s u s',
  nth_error (p_classes p) n = Some k -> k_imm k = false -> keyword_field k f ->
  In (Some f) (gspec (k_fields k)) ->
  construct p k kw = Ok a -> gfast_write p I n a s <> (Ok u, s').
Proof.
  intros X I p n k f kw a s u s' Ek Hi (Hf & Hk & Hn) Hsp Hc H.
  eapply gencode_missing in H; eauto. apply (mut_missing p k f kw a); auto.
Qed.

(** The C decoder never delivers the field, whatever the input: the attribute
    Python code sees has the default (defect). *)
Theorem C68_keyword_decode_loses : forall {X} (D : dimpl X) p top dfuel fuel n k f s x s',
  nth_error (p_classes p) n = Some k -> k_imm k = false -> o_enum p = false ->
  NoDup (names k) -> keyword_field k f ->
  gdecode_struct p D top dfuel fuel n s = (Ok x, s') ->
  exists a, x = PObj n a
    /\ assoc (maybe_escape_identifier (g_name f)) a
       = Some (option_map (lift p (g_ty f)) (g_def f)).
Proof.
  intros X D p top dfuel fuel n k f s x s' Ek Hi Ho Hnd (Hf & Hk & Hn) H.
  eapply decode_keyword_mut; eauto.
Qed.
Theorem C68_keyword_immutable_decode_loses :
  forall {X} (D : dimpl X) p top dfuel fuel n k f s x s',
  nth_error (p_classes p) n = Some k -> k_imm k = true -> o_enum p = false ->
  NoDup (names k) -> keyword_field k f ->
  gdecode_struct p D top dfuel fuel n s = (Ok x, s') ->
  exists a, x = PObj n a
    /\ assoc (g_name f) a = Some (option_map (lift p (g_ty f)) (g_def f)).
Proof.
  intros X D p top dfuel fuel n k f s x s' Ek Hi Ho Hnd (Hf & Hk & Hn) H.
  eapply decode_keyword_imm; eauto.
Qed.

(** One such class, without slots; and all of the above for it. *)
Definition mail (imm : bool) : gprog :=
  mkgprog false false []
    [mkgclass "Mail"%string false imm
       [mkgfield "from"%string 1 (GBase TI32) false None;
        mkgfield "size"%string 2 (GBase TI32) false None]].
Definition mail_wire : list byte :=
  [x08; x00; x01; x00; x00; x00; x05; x08; x00; x02; x00; x00; x00; x06; x00].

Example C68_keyword_used :
  (forall imm, keyword_field
     (mkgclass "Mail"%string false imm
       [mkgfield "from"%string 1 (GBase TI32) false None;
        mkgfield "size"%string 2 (GBase TI32) false None])
     (mkgfield "from"%string 1 (GBase TI32) false None))
  (* Python code alone: fine if mutable *)
  /\ gdeserialize (mail false) (binary bdefault) tt 0 mail_wire
     = Ok (PObj 0 [("from_", Some (PVal (VInt 5))); ("size", Some (PVal (VInt 6)))]%string, [])
  /\ gserialize (mail false) (binary bdefault) tt 0
       (PObj 0 [("from_", Some (PVal (VInt 5))); ("size", Some (PVal (VInt 6)))]%string)
     = Ok mail_wire
  (* C decoder and encoder *)
  /\ gfast_deserialize (mail false) (dbinary true None None) tt 0 mail_wire
     = Ok (PObj 0 [("from_", None); ("size", Some (PVal (VInt 6)));
                   ("from", Some (PVal (VInt 5)))]%string, [])
  /\ gfast_serialize (mail false) (cbinary true) tt 0
       [("from_", Some (PVal (VInt 5))); ("size", Some (PVal (VInt 6)))]%string
     = Raise EAttributeError
  (* immutable *)
  /\ gdeserialize (mail true) (binary bdefault) tt 0 mail_wire
     = Ok (PObj 0 [("from", Some (PVal (VInt 5))); ("size", Some (PVal (VInt 6)))]%string, [])
  /\ gserialize (mail true) (binary bdefault) tt 0
       (PObj 0 [("from", Some (PVal (VInt 5))); ("size", Some (PVal (VInt 6)))]%string)
     = Raise EAttributeError
  /\ gfast_deserialize (mail true) (dbinary true None None) tt 0 mail_wire = Raise ETypeError.
Proof.
  split.
  - intros imm. split; [left; reflexivity|]. split; [cbn; tauto|].
    cbn. intuition discriminate.
  - vm_compute. repeat split.
Qed.

(** The property a reader would expect, refuted: what one end writes, the other
    end with the same class and the C decoder reads. *)
Theorem C68_keyword_refuted : exists p n x bs y,
  gserialize p (binary bdefault) tt n x = Ok bs
  /\ gdeserialize p (binary bdefault) tt n bs = Ok (x, [])
  /\ gfast_deserialize p (dbinary true None None) tt n bs = Ok (y, [])
  /\ x = PObj n [("from_", Some (PVal (VInt 5))); ("size", Some (PVal (VInt 6)))]%string
  /\ exists a, y = PObj n a /\ assoc "from_"%string a = Some None.
Proof.
  exists (mail false), 0%nat,
    (PObj 0 [("from_", Some (PVal (VInt 5))); ("size", Some (PVal (VInt 6)))]%string),
    mail_wire,
    (PObj 0 [("from_", None); ("size", Some (PVal (VInt 6))); ("from", Some (PVal (VInt 5)))]%string).
  split; [vm_compute; reflexivity|]. split; [vm_compute; reflexivity|].
  split; [vm_compute; reflexivity|]. split; [reflexivity|].
  eexists. split; reflexivity.
Qed.

(** * Fields named like a method (defect)

    A field [write] or [validate] makes [write] fail, a field [read] makes the
    [read] of a mutable class fail.  (With slots the class statement itself
    fails.) *)
Theorem C68_hidden_write_fails : forall {X} (P : proto X) p n k f kw a s u s',
  nth_error (p_classes p) n = Some k -> In f (k_fields k) ->
  In (g_name f) ["write"; "validate"]%string -> construct p k kw = Ok a ->
  gwrite p P (GStruct n) (PObj n a) s <> (Ok u, s').
Proof.
  intros X P p n k f kw a s u s' Ek Hf Hn Hc H. eapply gwrite_hidden in H; eauto.
  eapply constructed_has; eauto.
  cbn in Hn. destruct Hn as [<-|[<-|[]]]; reflexivity.
Qed.
Theorem C68_hidden_read_fails : forall {X} (P : proto X) p dfuel fuel n k f s x s',
  nth_error (p_classes p) n = Some k -> In f (k_fields k) ->
  g_name f = "read"%string -> k_imm k = false ->
  gread_struct p P dfuel fuel n s <> (Ok x, s').
Proof.
  intros X P p dfuel fuel n k f s x s' Ek Hf Hn Hi H. eapply gread_hidden in H; eauto.
Qed.
Definition hides (n : string) : gprog :=
  mkgprog false false []
    [mkgclass "H"%string false false [mkgfield n 1 (GBase TI32) false None]].
Example C68_hidden_used :
  match construct (hides "write") (mkgclass "H"%string false false
       [mkgfield "write"%string 1 (GBase TI32) false None]) [] with
  | Ok a => gserialize (hides "write") (binary bdefault) tt 0 (PObj 0 a) = Raise ETypeError
  | _ => False
  end
  /\ gdeserialize (hides "read") (binary bdefault) tt 0 [x00] = Raise ETypeError
  /\ gdeserialize (hides "reed") (binary bdefault) tt 0 [x00]
     = Ok (PObj 0 [("reed"%string, None)], []).
Proof.
  vm_compute. auto.
Qed.

(** Axioms used. *)
Print Assumptions C68_read.
Print Assumptions C68_deserialize.
Print Assumptions C68_serialize.
Print Assumptions C68_fast_serialize.
Print Assumptions C68_fast_deserialize.
Print Assumptions C68_slots_unobservable.
Print Assumptions C68_binary_round_trip.
Print Assumptions C68_compact_round_trip.
Print Assumptions C68_json_round_trip.
Print Assumptions C68_unescaped_keywords.
Print Assumptions C68_escape_keywords_only.
Print Assumptions C68_escape_safe.
Print Assumptions C68_escape_injective.
Print Assumptions C68_escape_clash_refuted.
Print Assumptions C68_keyword_slots_fails.
Print Assumptions C68_keyword_immutable_write_fails.
Print Assumptions C68_keyword_immutable_validate_fails.
Print Assumptions C68_keyword_immutable_hash_fails.
Print Assumptions C68_keyword_encode_fails.
Print Assumptions C68_keyword_decode_loses.
Print Assumptions C68_keyword_immutable_decode_loses.
Print Assumptions C68_keyword_refuted.
Print Assumptions C68_hidden_write_fails.
Print Assumptions C68_hidden_read_fails.
