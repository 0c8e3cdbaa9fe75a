(** C69: classes annotated [python.immutable] (and exceptions, which are so
    unless annotated otherwise): attributes, reading, equality, hashes. *)
From Coq Require Import String.
From Coq Require Import ZArith List Bool Lia.
From Coq Require Import Init.Byte.
From Verif Require Import Base Bytes Proto Spec Dynamic Ext ExtRead Binary Compact Json.
From Verif Require Import GenClass SpecClass GenClassFacts GenClassNames GenClassImm.
Import ListNotations.
Open Scope Z_scope.

(** * Attributes do not change *)

(** What code can try on an object; an operation that raises leaves it alone. *)
Inductive attr_op := ASet (n : string) (v : option pv) | ADel (n : string).
Definition attempt (p : gprog) (k : gclass) (a : attrs) (o : attr_op) : attrs :=
  match (match o with ASet n v => setattr p k a n v | ADel n => delattr p k a n end) with
  | Ok a' => a'
  | _ => a
  end.

(** Whatever is tried, in whatever order, every field keeps its value; *)
Theorem C69_fields_fixed : forall p k ops a n, k_imm k = true -> In n (names k) ->
  assoc n (fold_left (attempt p k) ops a) = assoc n a.
Proof.
  intros p k ops a n Hi Hn. revert a.
  induction ops as [|o ops IH]; intros a; [reflexivity|]. cbn [fold_left]. rewrite IH.
  destruct o as [m v|m]; unfold attempt.
  - destruct (setattr p k a m v) as [a'| |] eqn:E; try reflexivity.
    apply imm_setattr in E as (_ & Hm & _ & ->); [|assumption]. rewrite assoc_upd.
    destruct (String.eqb_spec n m) as [->|]; [contradiction|reflexivity].
  - destruct (delattr p k a m) as [a'| |] eqn:E; try reflexivity.
    apply imm_delattr in E as (_ & Hm & _ & ->); [|assumption]. apply assoc_del.
    intros ->. contradiction.
Qed.

(** nothing else about the object changes either, unless it is an exception
    with slots; *)
Theorem C69_object_fixed : forall p k ops a, k_imm k = true ->
  o_slots p = false
  \/ k_exc k = false /\ (forall n, In n (map fst a) -> In n (names k)) ->
  fold_left (attempt p k) ops a = a.
Proof.
  intros p k ops a Hi Hc. induction ops as [|o ops IH]; [reflexivity|]. cbn [fold_left].
  replace (attempt p k a o) with a; [assumption|].
  destruct o as [m v|m]; unfold attempt.
  - destruct (setattr p k a m v) as [a'| |] eqn:E; try reflexivity.
    apply imm_setattr in E as (Hs & _ & He & _); [|assumption].
    destruct Hc as [Hc|[Hc _]]; congruence.
  - destruct (delattr p k a m) as [a'| |] eqn:E; try reflexivity.
    apply imm_delattr in E as (Hs & Hm & Ha & _); [|assumption].
    destruct Hc as [Hc|[_ Hc]]; [congruence|]. exfalso. apply Hm, Hc, Ha.
Qed.

(** and every attempt on a field raises TypeError. *)
Theorem C69_refused : forall p k a n v, k_imm k = true -> In n (names k) ->
  setattr p k a n v = Raise ETypeError /\ delattr p k a n = Raise ETypeError.
Proof.
  intros p k a n v Hi Hn. unfold setattr, delattr. rewrite Hi.
  assert (E : in_slots k n = true) by (apply mem_In; exact Hn). rewrite E.
  rewrite andb_false_r. auto.
Qed.

(** Without slots, code that sets any attribute, field or not, gets a
    TypeError. *)
Theorem C69_no_attributes : forall p k a n v, k_imm k = true -> o_slots p = false ->
  setattr p k a n v = Raise ETypeError.
Proof. intros p k a n v Hi Hs. unfold setattr. rewrite Hi, Hs. reflexivity. Qed.

(** A mutable class is another matter. *)
Theorem C69_mutable_set : forall p k a n v, k_imm k = false -> o_enum p = false ->
  In n (names k) -> exists a', setattr p k a n v = Ok a' /\ assoc n a' = Some v.
Proof.
  intros p k a n v Hi Ho Hn. exists (upd a n v). split.
  - unfold setattr, base_setattr. rewrite Hi, Ho.
    assert (E : in_slots k n = true) by (apply mem_In; exact Hn). rewrite E.
    rewrite andb_false_r. reflexivity.
  - rewrite assoc_upd, String.eqb_refl. reflexivity.
Qed.

Definition point (exc imm : bool) : gclass :=
  mkgclass "Point"%string exc imm
    [mkgfield "x"%string 1 (GBase TI32) false None;
     mkgfield "y"%string 2 (GBase TI32) false None].
Definition point_prog (slots exc imm : bool) : gprog :=
  mkgprog slots false [] [point exc imm].
Definition pt (x y : option Z) : attrs :=
  [("x"%string, option_map (fun z => PVal (VInt z)) x);
   ("y"%string, option_map (fun z => PVal (VInt z)) y)].

Example C69_fixed_used :
  construct (point_prog true true true) (point true true)
    [("x"%string, Some (PVal (VInt 1)))] = Ok (pt (Some 1) None)
  /\ fold_left (attempt (point_prog true true true) (point true true))
       [ASet "x" (Some (PVal (VInt 9))); ASet "note" None; ADel "y"; ADel "z"]%string
       (pt (Some 1) None)
     = pt (Some 1) None ++ [("note"%string, None)]
  /\ fold_left (attempt (point_prog true false false) (point false false))
       [ASet "x" (Some (PVal (VInt 9))); ASet "note" None; ADel "y"]%string
       (pt (Some 1) None)
     = [("x"%string, Some (PVal (VInt 9)))].
Proof. vm_compute. auto. Qed.

(** * [read] of an immutable class keeps the fields in local variables

    That of the field header has the variables [fname], [ftype] and [fid].  A
    field with one of these names is overwritten by the next header; the last
    one is that of the STOP byte.  So whatever the input, the value of the
    field is lost (defect). *)
Section Lost.
Context {X : Type}.
Variable P : proto X.
Variable p : gprog.
Hypothesis Ho : o_enum p = false.
Variables (n : nat) (k : gclass) (f : gfield).
Hypothesis Ek : nth_error (p_classes p) n = Some k.
Hypothesis Hi : k_imm k = true.
Hypothesis Hnd : NoDup (names k).
Hypothesis Hf : In f (k_fields k).

Theorem C69_ftype_lost : forall dfuel fuel s x s', g_name f = "ftype"%string ->
  gread_struct p P dfuel fuel n s = (Ok x, s') ->
  exists a, x = PObj n a /\ assoc "ftype" a = Some (Some (PVal (VInt 0))).
Proof.
  intros dfuel fuel s x s' Hn H.
  destruct (imm_local P p dfuel fuel n k f s x s' Ho Ek Hi Hnd Hf) as (e & fid & s1 & s2 & a & E & _ & Ha);
    [rewrite Hn; reflexivity|assumption|].
  rewrite Hn, header_ftype in Ha. eauto.
Qed.

Theorem C69_fname_lost : forall dfuel fuel s x s', g_name f = "fname"%string ->
  gread_struct p P dfuel fuel n s = (Ok x, s') ->
  exists a, x = PObj n a /\ assoc "fname" a = Some None.
Proof.
  intros dfuel fuel s x s' Hn H.
  destruct (imm_local P p dfuel fuel n k f s x s' Ho Ek Hi Hnd Hf) as (e & fid & s1 & s2 & a & E & _ & Ha);
    [rewrite Hn; reflexivity|assumption|].
  rewrite Hn, header_fname in Ha. eauto.
Qed.

Lemma fid_lost : stop_zero P -> forall dfuel fuel s x s', g_name f = "fid"%string ->
  gread_struct p P dfuel fuel n s = (Ok x, s') ->
  exists a, x = PObj n a /\ assoc "fid" a = Some (Some (PVal (VInt 0))).
Proof.
  intros Hz dfuel fuel s x s' Hn H.
  destruct (imm_local P p dfuel fuel n k f s x s' Ho Ek Hi Hnd Hf) as (e & fid & s1 & s2 & a & E & Hr & Ha);
    [rewrite Hn; reflexivity|assumption|].
  rewrite Hn, header_fid in Ha. rewrite (Hz _ _ _ Hr) in Ha. eauto.
Qed.

(** A field of one of these names makes every [read] fail. *)
Theorem C69_name_fails : forall dfuel fuel s x s',
  In (g_name f) ["iprot"; "TType"; "cls"]%string ->
  gread_struct p P dfuel fuel n s <> (Ok x, s').
Proof.
  intros dfuel fuel s x s' Hn H.
  destruct (imm_read P p _ _ _ _ _ _ _ Ek Hi H) as (e & fid & s1 & s2 & a & _ & _ & _ & Hm).
  specialize (Hm (maybe_escape_identifier (g_name f))
                 (in_map (fun f => maybe_escape_identifier (g_name f)) _ _ Hf)).
  cbn [In] in Hn. destruct Hn as [E|[E|[E|[]]]]; rewrite <- E in Hm; vm_compute in Hm;
    destruct Hm as (H1 & H2 & H3); congruence.
Qed.
End Lost.

Theorem C69_fid_lost : forall p n k f cf cc lim, o_enum p = false ->
  nth_error (p_classes p) n = Some k -> k_imm k = true -> NoDup (names k) ->
  In f (k_fields k) -> g_name f = "fid"%string ->
  (forall dfuel fuel s x s', gread_struct p (binary cf) dfuel fuel n s = (Ok x, s') ->
     exists a, x = PObj n a /\ assoc "fid" a = Some (Some (PVal (VInt 0))))
  /\ (forall dfuel fuel s x s', gread_struct p (compact cc) dfuel fuel n s = (Ok x, s') ->
     exists a, x = PObj n a /\ assoc "fid" a = Some (Some (PVal (VInt 0))))
  /\ (forall dfuel fuel s x s', gread_struct p (json lim) dfuel fuel n s = (Ok x, s') ->
     exists a, x = PObj n a /\ assoc "fid" a = Some (Some (PVal (VInt 0)))).
Proof.
  intros p n k f cf cc lim Ho Ek Hi Hnd Hf Hn.
  split; [|split]; intros dfuel fuel s x s' H.
  - exact (fid_lost (binary cf) p Ho n k f Ek Hi Hnd Hf (stop_zero_binary cf) _ _ _ _ _ Hn H).
  - exact (fid_lost (compact cc) p Ho n k f Ek Hi Hnd Hf (stop_zero_compact cc) _ _ _ _ _ Hn H).
  - exact (fid_lost (json lim) p Ho n k f Ek Hi Hnd Hf (stop_zero_json lim) _ _ _ _ _ Hn H).
Qed.

(** A class with such a field, and what it makes of its own output. *)
Definition fileinfo (nm : string) (imm : bool) : gprog :=
  mkgprog false false []
    [mkgclass "FileInfo"%string false imm
       [mkgfield nm 1 (GBase TI32) false None;
        mkgfield "size"%string 2 (GBase TI32) false None]].
Definition info (nm : string) (z w : Z) : pv :=
  PObj 0 [(nm, Some (PVal (VInt z))); ("size"%string, Some (PVal (VInt w)))].

Theorem C69_round_trip_refuted : exists p x y bs, x <> y
  /\ gserialize p (binary bdefault) tt 0 x = Ok bs
  /\ gdeserialize p (binary bdefault) tt 0 bs = Ok (y, []).
Proof.
  exists (fileinfo "fid" true), (info "fid" 7 8), (info "fid" 0 8).
  exists [x08; x00; x01; x00; x00; x00; x07; x08; x00; x02; x00; x00; x00; x08; x00].
  split; [intros H; injection H as H; lia|].
  split; vm_compute; reflexivity.
Qed.
Example C69_lost_used :
  match gserialize (fileinfo "fid" true) (binary bdefault) tt 0 (info "fid" 7 8) with
  | Ok bs =>
      gdeserialize (fileinfo "fid" true) (binary bdefault) tt 0 bs = Ok (info "fid" 0 8, [])
      /\ gdeserialize (fileinfo "fid" false) (binary bdefault) tt 0 bs = Ok (info "fid" 7 8, [])
      /\ gdeserialize (fileinfo "ftype" true) (binary bdefault) tt 0 bs = Ok (info "ftype" 0 8, [])
      /\ gdeserialize (fileinfo "iprot" true) (binary bdefault) tt 0 bs = Raise EAttributeError
      /\ gdeserialize (fileinfo "cls" true) (binary bdefault) tt 0 bs = Raise ETypeError
      /\ gdeserialize (fileinfo "fd" true) (binary bdefault) tt 0 bs = Ok (info "fd" 7 8, [])
  | _ => False
  end.
Proof. vm_compute. repeat split. Qed.

(** * Equality and hashes *)

Section Eq.
Variable p : gprog.
Variables veq same : option pv -> option pv -> bool.

(** Without slots, the dicts are compared, identical objects count as equal:
    everything equals itself. *)
Theorem C69_dict_reflexive : forall n a, o_slots p = false -> NoDup (map fst a) ->
  (forall x, same x x = true) -> obj_eq p veq same n n a a = Ok true.
Proof.
  intros n a Hs Hnd Hx. unfold obj_eq. rewrite Nat.eqb_refl, Hs. cbn [negb]. f_equal.
  apply adict_eq_true. split; [reflexivity|]. intros m x Hm. exists x.
  split; [apply In_assoc; assumption|left; apply Hx].
Qed.

(** With slots, the attributes are compared by [==] alone: an object equals
    itself just if each of its attributes does. *)
Theorem C69_slots_reflexive : forall n k a, o_slots p = true ->
  nth_error (p_classes p) n = Some k ->
  (forall m, In m (names k) -> exists x, assoc m a = Some x) ->
  (obj_eq p veq same n n a a = Ok true
   <-> forall m x, In m (names k) -> assoc m a = Some x -> veq x x = true).
Proof.
  intros n k a Hs Ek Ha. unfold obj_eq. rewrite Nat.eqb_refl, Hs, Ek. cbn [negb].
  rewrite slots_eq_true. fold (names k). split.
  - intros H m x Hm Hx. destruct (H m Hm) as (x' & y' & E1 & E2 & E3). congruence.
  - intros H m Hm. destruct (Ha m Hm) as [x Hx]. exists x, x. eauto.
Qed.

Theorem C69_symmetric : forall n m a b,
  NoDup (map fst a) -> NoDup (map fst b) ->
  (forall x y, same x y = same y x) -> (forall x y, veq x y = veq y x) ->
  obj_eq p veq same n m a b = Ok true -> obj_eq p veq same m n b a = Ok true.
Proof.
  intros n m a b Ha Hb Hs Hv. unfold obj_eq.
  destruct (Nat.eqb_spec n m) as [->|]; [|discriminate]. rewrite Nat.eqb_refl. cbn [negb].
  destruct (o_slots p).
  - destruct (nth_error (p_classes p) m) as [k|]; [|discriminate].
    rewrite !slots_eq_true. intros H r Hr. destruct (H r Hr) as (x & y & E1 & E2 & E3).
    exists y, x. rewrite Hv. auto.
  - intros [= H]. rewrite (adict_sym veq same a b); auto.
Qed.

(** Equal objects have equal hashes, if equal attributes do. *)
Theorem C69_equal_hash : forall vhash chash thash n m k kw a b,
  nth_error (p_classes p) n = Some k -> plain k ->
  (forall x y, veq x y = true -> vhash x = vhash y) ->
  (forall x y, same x y = true -> vhash x = vhash y) ->
  construct p k kw = Ok a ->
  obj_eq p veq same n m a b = Ok true ->
  obj_hash p vhash chash thash n a = obj_hash p vhash chash thash m b.
Proof.
  intros vhash chash thash n m k kw a b Ek Hp Hv Hs Hc H.
  apply (eq_hash p veq same vhash chash thash n m k a b Ek Hp Hv Hs); [|exact H].
  intros nm Hn. apply in_map_iff in Hn as (f & <- & Hf).
  exact (constructed_has p k kw a f (g_name f) Hc Hf eq_refl (esc_plain k f Hp Hf)).
Qed.
End Eq.

(** IEEE equality of doubles, equality of ints. *)
Definition num_eq (x y : option pv) : bool :=
  match x, y with
  | None, None => true
  | Some (PVal v), Some (PVal w) => key_eqb v w
  | _, _ => false
  end.
Definition nan : value := VDouble 9221120237041090560.

Definition reading (slots : bool) : gprog :=
  mkgprog slots false []
    [mkgclass "Reading"%string false true [mkgfield "t"%string 1 (GBase TDouble) false None]].

(** With slots, an object holding a NaN differs from itself; without, it does
    not (defect). *)
Theorem C69_nan_refuted : exists a,
  construct (reading true) (mkgclass "Reading"%string false true
    [mkgfield "t"%string 1 (GBase TDouble) false None]) [("t"%string, Some (PVal nan))] = Ok a
  /\ obj_eq (reading true) num_eq (fun _ _ => true) 0 0 a a = Ok false
  /\ obj_eq (reading false) num_eq (fun _ _ => true) 0 0 a a = Ok true.
Proof. exists [("t"%string, Some (PVal nan))]. vm_compute. auto. Qed.

Definition ihash (x : option pv) : outcome Z :=
  match x with
  | None => Ok 17
  | Some (PVal (VInt z)) => Ok z
  | Some (PVal (VList _)) | Some (PList false _) => Raise ETypeError
  | _ => Ok 0
  end.
Example C69_hash_used :
  let p := point_prog true false true in
  obj_eq p num_eq (fun _ _ => false) 0 0 (pt (Some 1) None) (pt (Some 1) None) = Ok true
  /\ obj_eq p num_eq (fun _ _ => false) 0 0 (pt (Some 1) None) (pt (Some 2) None) = Ok false
  /\ (forall x y, num_eq x y = true -> ihash x = ihash y)
  /\ obj_hash (point_prog true false false) ihash (fun _ => 0) (fun _ => 0) 0 (pt None None)
     = Raise ETypeError
  /\ obj_hash p ihash (fun _ => 0) (fun _ => 0) 0
       [("x"%string, Some (PList false [])); ("y"%string, None)] = Raise ETypeError.
Proof.
  split; [vm_compute; reflexivity|]. split; [vm_compute; reflexivity|].
  split; [|vm_compute; auto].
  intros [[v| | | | |]|] [[w| | | | |]|] H; try discriminate H; try reflexivity.
  cbn [num_eq] in H. destruct v, w; try discriminate H; try reflexivity.
  cbn [key_eqb] in H. apply Z.eqb_eq in H. subst. reflexivity.
Qed.

(** Axioms used. *)
Print Assumptions C69_fields_fixed.
Print Assumptions C69_object_fixed.
Print Assumptions C69_refused.
Print Assumptions C69_no_attributes.
Print Assumptions C69_mutable_set.
Print Assumptions C69_ftype_lost.
Print Assumptions C69_fname_lost.
Print Assumptions C69_name_fails.
Print Assumptions C69_fid_lost.
Print Assumptions C69_round_trip_refuted.
Print Assumptions C69_dict_reflexive.
Print Assumptions C69_slots_reflexive.
Print Assumptions C69_symmetric.
Print Assumptions C69_equal_hash.
Print Assumptions C69_nan_refuted.
