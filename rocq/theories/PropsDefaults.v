(** C73: default values as objects.

    The default of a field is evaluated three times: for the parameter of
    [__init__], for thrift_spec, and in [__init__] for an argument that is the
    object in thrift_spec.  An omitted argument is the first object, never the
    second. *)
From Coq Require Import String.
From Coq Require Import ZArith List Bool Lia.
From Coq Require Import Init.Byte.
From Coq Require Import ZifyBool ZifyNat ZifyN.
From Verif Require Import Base Proto GenClass GenClassFacts Const Defaults DefaultsFacts ConstFacts ConstText JsonText.
Import ListNotations.
Open Scope Z_scope.

Implicit Types (p : gprog) (ds : list dclass) (d e : dclass).

(** * Loading *)

(** A class after loading. *)
Lemma loaded_class p ds fuel cs h0 n d : load p ds fuel = HOk cs h0 -> nth_error ds n = Some d ->
  exists c h1, nth_error cs n = Some c /\ loaded h1 h0 d c /\ grows h1 h0.
Proof.
  intros H Hd. apply load_ok in H as (h1 & G & F).
  revert n Hd. induction F as [|d' c' ds' cs' Hdc F IH]; intros n Hd; [destruct n; discriminate|].
  destruct n as [|n].
  - cbn [nth_error] in *. injection Hd as <-. eauto.
  - cbn [nth_error] in *. apply IH. assumption.
Qed.

(** Nothing passed is an object in the class's thrift_spec. *)
Definition not_in_spec (c : cls) (kw : list (string * hv)) : Prop :=
  forall sp k w n v, c_spec c = Some sp -> In (k, w) sp -> In (n, v) kw -> same v w = false.

Definition parameters (d : dclass) : list string :=
  map (fun f => maybe_escape_identifier (d_name f)) d.

Lemma zassoc_In k l v : zassoc k l = Some v -> In (k, v) l.
Proof.
  induction l as [|[j w] l IH]; cbn [zassoc]; intros H; [discriminate|].
  destruct (k =? j) eqn:E.
  - injection H as <-. left. f_equal. lia.
  - right. apply IH. assumption.
Qed.
Lemma zassoc_ex k l : In k (map fst l) -> exists v, zassoc k l = Some v.
Proof.
  induction l as [|[j w] l IH]; cbn [zassoc map fst]; intros H; [destruct H|].
  destruct (k =? j) eqn:E; [eauto|]. destruct H as [->|H]; [lia|]. apply IH. assumption.
Qed.
Lemma assoc_In {A} n (l : list (string * A)) v : assoc n l = Some v -> In (n, v) l.
Proof.
  induction l as [|[m w] l IH]; cbn [assoc]; intros H; [discriminate|].
  destruct (String.eqb_spec n m) as [->|]; [injection H as <-; left; reflexivity|].
  right. apply IH. assumption.
Qed.

(** Each attribute is the argument, or the object made for the parameter when
    the class was defined; no default is evaluated. *)
Theorem C73_construct : forall p ds fuel cs h0 n d c ev kw h,
  load p ds fuel = HOk cs h0 -> nth_error ds n = Some d -> nth_error cs n = Some c ->
  negative d = false ->
  (forall m v, In (m, v) kw -> In m (parameters d)) -> not_in_spec c kw ->
  new ds cs ev n kw h
  = HOk (HRef (length h))
      (h ++ [HObj n (map (fun fa => (d_name (fst fa),
                                     match assoc (maybe_escape_identifier (d_name (fst fa))) kw with
                                     | Some v => v
                                     | None => snd fa
                                     end)) (combine d (c_args c)))]).
Proof.
  intros p ds fuel cs h0 n d c ev kw h Hl Hd Hc Hneg Hkw Hs.
  destruct (loaded_class p ds fuel cs h0 n d Hl Hd) as (c' & h1 & Hc' & (Ha & sp & Esp & Hsp) & _).
  rewrite Hc in Hc'. injection Hc' as <-. unfold spec_ok in Hsp. rewrite Hneg in Hsp.
  destruct Hsp as (Hid & _ & Hold).
  unfold new. rewrite Hd, Hc. replace (forallb _ kw) with true.
  2: { symmetry. apply forallb_forall. intros [m v] Hm. apply mem_In. apply (Hkw m v Hm). }
  assert (I : init_all ev d (c_args c) c kw h
              = HOk (map (fun fa => (d_name (fst fa),
                                     match assoc (maybe_escape_identifier (d_name (fst fa))) kw with
                                     | Some v => v
                                     | None => snd fa
                                     end)) (combine d (c_args c))) h).
  { assert (Hin : incl (map d_id d) (map fst sp)) by (rewrite Hid; apply incl_refl).
    clear Hd Hc Hneg Hkw Hid. revert Hin.
    induction Ha as [|f a d args [Hf _] _ IH]; intros Hin; [reflexivity|].
    cbn [init_all combine map fst snd].
    assert (E : init_field ev f a c kw h
                = HOk match assoc (maybe_escape_identifier (d_name f)) kw with
                      | Some v => v | None => a end h).
    { unfold init_field. destruct (d_cont f); [|reflexivity]. destruct (d_def f); [|reflexivity].
      rewrite Esp. destruct (zassoc_ex (d_id f) sp) as [w Hw].
      { apply Hin. left. reflexivity. }
      rewrite Hw. apply zassoc_In in Hw.
      replace (same _ w) with false; [reflexivity|]. symmetry.
      destruct (assoc _ kw) as [v|] eqn:A.
      - apply assoc_In in A. apply (Hs sp _ w _ v Esp Hw A).
      - rewrite Forall_forall in Hold. specialize (Hold _ Hw). cbn [snd] in Hold.
        destruct a, w; try reflexivity. cbn [same]. lia. }
    rewrite E. cbn [hbind]. rewrite IH; [reflexivity|].
    intros k Hk. apply Hin. right. assumption. }
  rewrite I. reflexivity.
Qed.

Lemma attr_args h n d args kw i f a : NoDup (map d_name d) ->
  nth_error d i = Some f -> nth_error args i = Some a ->
  attr (length h) (d_name f)
    (h ++ [HObj n (map (fun fa => (d_name (fst fa),
                                   match assoc (maybe_escape_identifier (d_name (fst fa))) kw with
                                   | Some v => v
                                   | None => snd fa
                                   end)) (combine d args))])
  = Some match assoc (maybe_escape_identifier (d_name f)) kw with Some v => v | None => a end.
Proof.
  intros Hn Hf Ha. unfold attr. rewrite nth_error_app2 by lia. rewrite Nat.sub_diag. cbn [nth_error].
  revert args i Hf Ha. induction d as [|g d IH]; intros [|b args] [|i] Hf Ha; try discriminate.
  - cbn [nth_error] in *. injection Hf as ->. injection Ha as ->.
    cbn [combine map fst snd assoc]. rewrite String.eqb_refl. reflexivity.
  - cbn [nth_error] in *. cbn [combine map fst snd assoc]. inversion Hn as [|? ? H1 H2]; subst.
    destruct (String.eqb_spec (d_name f) (d_name g)) as [E|].
    + exfalso. apply H1. rewrite <- E. apply in_map. apply (nth_error_In _ _ Hf).
    + apply (IH H2 args i); assumption.
Qed.

(** (defect) All objects made without the field hold the same list, set, dict or
    struct, whatever happens in between. *)
Theorem C73_shared : forall p ds fuel cs h0 n d i f x,
  load p ds fuel = HOk cs h0 -> nth_error ds n = Some d ->
  negative d = false -> NoDup (map d_name d) -> nth_error d i = Some f ->
  d_def f = Some x -> object_literal x = true ->
  exists l, (l < length h0)%nat /\ forall ev h, exists h',
    new ds cs ev n [] h = HOk (HRef (length h)) h'
    /\ attr (length h) (d_name f) h' = Some (HRef l).
Proof.
  intros p ds fuel cs h0 n d i f x Hl Hd Hneg Hn Hf Hx Ho.
  destruct (loaded_class p ds fuel cs h0 n d Hl Hd) as (c & h1 & Hc & (Ha & _) & G).
  assert (A : exists a, nth_error (c_args c) i = Some a /\ arg_ok h1 f a).
  { clear Hd Hneg Hn. revert i Hf. induction Ha as [|g a d args Hg _ IH]; intros [|i] Hf; try discriminate.
    - cbn [nth_error] in *. injection Hf as ->. eauto.
    - cbn [nth_error] in *. apply IH. assumption. }
  destruct A as (a & Hai & Hr & Hm). unfold made in Hm. rewrite Hx in Hm.
  destruct (proj1 Hm Ho) as [l ->]. exists l. split; [apply grows_length in G; lia|].
  intros ev h. eexists. split.
  - apply (C73_construct p ds fuel cs h0 n d c ev [] h); try assumption.
    + intros ? ? [].
    + intros ? ? ? ? ? _ _ [].
  - rewrite (attr_args h n d (c_args c) [] i f (HRef l)); auto.
Qed.

(** So a change to one shows in all made later; and [a] and [b] are different
    objects. *)
Lemma set_at_nth h : forall l o l', nth_error (set_at h l o) l'
  = if (l =? l')%nat then match nth_error h l with Some _ => Some o | None => None end
    else nth_error h l'.
Proof.
  induction h as [|x h IH]; intros [|l] o [|l']; cbn [set_at nth_error Nat.eqb]; try reflexivity.
  - destruct (l =? l')%nat; reflexivity.
  - rewrite IH. reflexivity.
Qed.
Lemma set_at_length h : forall l o, length (set_at h l o) = length h.
Proof. induction h as [|x h IH]; intros [|l] o; cbn [set_at length]; auto. Qed.

Theorem C73_mutation_seen : forall p ds fuel cs h0 n d i f x ev h a h1 l v h2,
  load p ds fuel = HOk cs h0 -> nth_error ds n = Some d ->
  negative d = false -> NoDup (map d_name d) -> nth_error d i = Some f ->
  d_def f = Some x -> object_literal x = true ->
  new ds cs ev n [] h = HOk (HRef a) h1 -> attr a (d_name f) h1 = Some (HRef l) ->
  append l v h1 = Some h2 ->
  exists b h3 vs, new ds cs ev n [] h2 = HOk (HRef b) h3 /\ b <> a
    /\ attr b (d_name f) h3 = Some (HRef l)
    /\ nth_error h3 l = Some (HList false (vs ++ [v])).
Proof.
  intros p ds fuel cs h0 n d i f x ev h a h1 l v h2 Hl Hd Hneg Hn Hf Hx Ho Hnew Hattr Happ.
  destruct (C73_shared p ds fuel cs h0 n d i f x Hl Hd Hneg Hn Hf Hx Ho) as (l' & _ & H).
  destruct (H ev h) as (h1' & E1 & A1). rewrite Hnew in E1. injection E1 as -> <-.
  rewrite Hattr in A1. injection A1 as <-.
  destruct (H ev h2) as (h3 & E2 & A2).
  unfold append in Happ. destruct (nth_error h1 l) as [[[] vs| | |]|] eqn:N; try discriminate.
  injection Happ as <-. exists (length (set_at h1 l (HList false (vs ++ [v])))), h3, vs.
  split; [exact E2|]. split; [|split; [exact A2|]].
  - rewrite set_at_length.
    destruct (loaded_class p ds fuel cs h0 n d Hl Hd) as (c & hx & Hc & _).
    rewrite (C73_construct p ds fuel cs h0 n d c ev [] h) in Hnew; try assumption;
      [|intros ? ? []|intros ? ? ? ? ? _ _ []].
    injection Hnew as <-. rewrite app_length. cbn [length]. lia.
  - destruct (loaded_class p ds fuel cs h0 n d Hl Hd) as (c & hx & Hc & _).
    rewrite (C73_construct p ds fuel cs h0 n d c ev [] _ Hl Hd Hc Hneg) in E2;
      [|intros ? ? []|intros ? ? ? ? ? _ _ []].
    injection E2 as <-.
    rewrite nth_error_app1.
    + rewrite set_at_nth, Nat.eqb_refl, N. reflexivity.
    + rewrite set_at_length. apply nth_error_Some. congruence.
Qed.

(** A field without default is None, one whose default cannot be changed holds
    no object. *)
Theorem C73_unshared : forall p ds fuel cs h0 n d i f ev h,
  load p ds fuel = HOk cs h0 -> nth_error ds n = Some d ->
  negative d = false -> NoDup (map d_name d) -> nth_error d i = Some f ->
  match d_def f with Some x => object_literal x = false | None => True end ->
  exists h' a, new ds cs ev n [] h = HOk (HRef (length h)) h'
    /\ attr (length h) (d_name f) h' = Some a
    /\ (forall l, a <> HRef l) /\ (d_def f = None -> a = HNone).
Proof.
  intros p ds fuel cs h0 n d i f ev h Hl Hd Hneg Hn Hf Hx.
  destruct (loaded_class p ds fuel cs h0 n d Hl Hd) as (c & h1 & Hc & (Ha & _) & G).
  assert (A : exists a, nth_error (c_args c) i = Some a /\ arg_ok h1 f a).
  { clear Hd Hneg Hn. revert i Hf. induction Ha as [|g a d args Hg _ IH]; intros [|i] Hf; try discriminate.
    - cbn [nth_error] in *. injection Hf as ->. eauto.
    - cbn [nth_error] in *. apply IH. assumption. }
  destruct A as (a & Hai & Hr & Hm). unfold made in Hm.
  eexists _, a. split; [|split; [|split]].
  - apply (C73_construct p ds fuel cs h0 n d c ev [] h); try assumption.
    + intros ? ? [].
    + intros ? ? ? ? ? _ _ [].
  - rewrite (attr_args h n d (c_args c) [] i f a); auto.
  - intros l ->. destruct (d_def f) as [x|]; [|discriminate].
    pose proof (proj2 Hm (ex_intro _ l eq_refl)). congruence.
  - intros E. rewrite E in Hm. assumption.
Qed.

(** * When the default is copied *)

Lemma init_all_attr ev c kw : (forall x h y h', ev x h = HOk y h' -> grows h h') ->
  forall d args h r h' i f a, NoDup (map d_name d) ->
  init_all ev d args c kw h = HOk r h' -> nth_error d i = Some f -> nth_error args i = Some a ->
  exists h1 h2 v, grows h h1 /\ init_field ev f a c kw h1 = HOk v h2 /\ grows h2 h'
    /\ assoc (d_name f) r = Some v.
Proof.
  intros He. induction d as [|g d IH]; intros [|b args] h r h' [|i] f a Hn H Hf Ha; try discriminate.
  - cbn [nth_error] in *. injection Hf as ->. injection Ha as ->. cbn [init_all] in H.
    apply hbind_ok in H as (v & h1 & H1 & H). apply hbind_ok in H as (t & h2 & H2 & H).
    injection H as <- <-. exists h, h1, v. split; [apply grows_refl|]. split; [assumption|].
    split; [apply (init_all_grows ev c kw He d args h1 t); assumption|].
    cbn [assoc]. rewrite String.eqb_refl. reflexivity.
  - cbn [nth_error] in *. cbn [init_all] in H. inversion Hn as [|? ? N1 N2]; subst.
    apply hbind_ok in H as (v & h1 & H1 & H). apply hbind_ok in H as (t & h2 & H2 & H).
    injection H as <- <-. destruct (IH args h1 t h2 i f a N2 H2 Hf Ha) as (h3 & h4 & w & A1 & A2 & A3 & A4).
    exists h3, h4, w. split; [|split; [assumption|split; [assumption|]]].
    + apply (grows_trans _ h1); [|assumption]. apply (init_field_grows ev g b c kw h v); assumption.
    + cbn [assoc]. destruct (String.eqb_spec (d_name f) (d_name g)) as [E|]; [|assumption].
      exfalso. apply N1. rewrite <- E. apply in_map. apply (nth_error_In _ _ Hf).
Qed.

(** Only who passes the very object in thrift_spec gets an object of their own. *)
Theorem C73_copied : forall p ds cs fuel n d c i f arg x sp w kw h a h',
  nth_error ds n = Some d -> nth_error cs n = Some c -> NoDup (map d_name d) ->
  nth_error d i = Some f -> nth_error (c_args c) i = Some arg ->
  d_cont f = true -> d_def f = Some x -> object_literal x = true ->
  c_spec c = Some sp -> zassoc (d_id f) sp = Some (HRef w) ->
  assoc (maybe_escape_identifier (d_name f)) kw = Some (HRef w) ->
  new ds cs (heval p ds cs fuel) n kw h = HOk (HRef a) h' ->
  exists l, attr a (d_name f) h' = Some (HRef l) /\ (length h <= l)%nat.
Proof.
  intros p ds cs fuel n d c i f arg x sp w kw h a h' Hd Hc Hn Hf Ha Hg Hx Ho Hs Hz Hk H.
  pose proof (heval_grows p ds cs fuel) as He.
  unfold new in H. rewrite Hd, Hc in H. destruct (forallb _ kw); [|discriminate].
  apply hbind_ok in H as (r & h1 & H1 & H). cbn [alloc] in H. injection H as <- <-.
  destruct (init_all_attr _ c kw He d (c_args c) h r h1 i f arg Hn H1 Hf Ha)
    as (h2 & h3 & v & A1 & A2 & A3 & A4).
  unfold init_field in A2. rewrite Hk, Hg, Hx, Hs, Hz in A2. cbn [same] in A2.
  rewrite Nat.eqb_refl in A2.
  destruct (heval_fresh p ds cs fuel x h2 v h3 A2) as (_ & F & L).
  destruct (proj1 L Ho) as [l ->]. cbn [fresh_in] in F. exists l. split.
  - unfold attr. rewrite nth_error_app2 by lia. rewrite Nat.sub_diag. exact A4.
  - apply grows_length in A1. lia.
Qed.

(** * Objects that are read *)

(** (defect) An object of a mutable class read from a message without the field
    holds the shared default too ... *)
Lemma hupd_assoc l n v m : assoc m (hupd l n v) = if String.eqb m n then Some v else assoc m l.
Proof.
  induction l as [|[k w] l IH]; cbn [hupd assoc].
  - reflexivity.
  - destruct (String.eqb_spec n k) as [->|Hnk]; cbn [assoc].
    + destruct (String.eqb_spec m k); reflexivity.
    + rewrite IH. destruct (String.eqb_spec m k) as [->|Hmk]; [|reflexivity].
      destruct (String.eqb_spec k n) as [->|]; [congruence|reflexivity].
Qed.
Lemma fold_hupd got : forall a m, ~ In m (map fst got) ->
  assoc m (fold_left (fun a nv => hupd a (fst nv) (snd nv)) got a) = assoc m a.
Proof.
  induction got as [|[n v] got IH]; intros a m H; [reflexivity|]. cbn [fold_left fst snd].
  rewrite IH by (intros Hi; apply H; right; assumption). rewrite hupd_assoc.
  destruct (String.eqb_spec m n) as [->|]; [|reflexivity]. exfalso. apply H. left. reflexivity.
Qed.

Theorem C73_read_shared : forall p ds fuel cs h0 n d i f x,
  load p ds fuel = HOk cs h0 -> nth_error ds n = Some d ->
  negative d = false -> NoDup (map d_name d) -> nth_error d i = Some f ->
  d_def f = Some x -> object_literal x = true ->
  exists l, forall fuel' got h, ~ In (d_name f) (map fst got) -> exists h',
    read_mutable p ds cs fuel' n got h = HOk (HRef (length h)) h'
    /\ attr (length h) (d_name f) h' = Some (HRef l).
Proof.
  intros p ds fuel cs h0 n d i f x Hl Hd Hneg Hn Hf Hx Ho.
  destruct (C73_shared p ds fuel cs h0 n d i f x Hl Hd Hneg Hn Hf Hx Ho) as (l & _ & H).
  exists l. intros fuel' got h Hg. unfold read_mutable.
  destruct (H (heval p ds cs fuel') h) as (h' & -> & A). cbn [hbind].
  unfold attr in A. destruct (nth_error h' (length h)) as [[| | |m a]|] eqn:N; try discriminate.
  eexists. split; [reflexivity|]. unfold attr. rewrite set_at_nth, Nat.eqb_refl, N.
  rewrite fold_hupd by assumption. assumption.
Qed.

(** ... one of an immutable class only if the C decoder reads it. *)
Theorem C73_fast_read_shared : forall p ds fuel cs h0 n d c i f a fuel' got h,
  load p ds fuel = HOk cs h0 -> nth_error ds n = Some d -> nth_error cs n = Some c ->
  negative d = false -> NoDup (map d_name d) -> nth_error d i = Some f ->
  nth_error (c_args c) i = Some a ->
  (forall m v, In (m, v) got -> In m (parameters d)) -> not_in_spec c got ->
  ~ In (maybe_escape_identifier (d_name f)) (map fst got) ->
  exists h', fast_immutable p ds cs fuel' n got h = HOk (HRef (length h)) h'
    /\ attr (length h) (d_name f) h' = Some a.
Proof.
  intros p ds fuel cs h0 n d c i f a fuel' got h Hl Hd Hc Hneg Hn Hf Ha Hg Hs Hno.
  unfold fast_immutable. eexists. split.
  - apply (C73_construct p ds fuel cs h0 n d c); assumption.
  - rewrite (attr_args h n d (c_args c) got i f a) by assumption.
    rewrite (assoc_None _ got) by assumption. reflexivity.
Qed.

Lemma hmap_kw p ds cs fuel got : forall d h kw h', NoDup (map (fun f => maybe_escape_identifier (d_name f)) d) ->
  hmap (fun f h => hbind (default_arg p ds fuel cs f h) (fun v h1 =>
          HOk (maybe_escape_identifier (d_name f),
               match assoc (d_name f) got with Some w => w | None => v end) h1)) d h = HOk kw h' ->
  grows h h' /\ forall i f, nth_error d i = Some f -> assoc (d_name f) got = None ->
    exists v h1 h2, grows h h1 /\ default_arg p ds fuel cs f h1 = HOk v h2
      /\ assoc (maybe_escape_identifier (d_name f)) kw = Some v.
Proof.
  induction d as [|g d IH]; intros h kw h' Hn H; cbn [hmap] in H.
  - injection H as <- <-. split; [apply grows_refl|]. intros [|i] f Hf; discriminate.
  - apply hbind_ok in H as (y & h1 & H1 & H). apply hbind_ok in H as (t & h2 & H2 & H).
    injection H as <- <-. apply hbind_ok in H1 as (v & h3 & H3 & E). injection E as <- <-.
    cbn [map] in Hn. inversion Hn as [|? ? N1 N2]; subst.
    destruct (IH h3 t h2 N2 H2) as [G K].
    pose proof (proj1 (default_arg_fresh p ds fuel cs g h v h3 H3)) as G3.
    split; [apply (grows_trans _ h3); assumption|].
    intros [|i] f Hf Hno; cbn [nth_error] in Hf.
    + injection Hf as ->. exists v, h, h3. split; [apply grows_refl|]. split; [assumption|].
      cbn [assoc]. rewrite String.eqb_refl, Hno. reflexivity.
    + destruct (K i f Hf Hno) as (w & h4 & h5 & A1 & A2 & A3). exists w, h4, h5.
      split; [apply (grows_trans _ h3); assumption|]. split; [assumption|].
      cbn [assoc]. destruct (String.eqb_spec (maybe_escape_identifier (d_name f)) (maybe_escape_identifier (d_name g))) as [E|]; [|assumption].
      exfalso. apply N1. rewrite <- E.
      apply (in_map (fun f => maybe_escape_identifier (d_name f))). apply (nth_error_In _ _ Hf).
Qed.

(** The Python reader of an immutable class gives every object defaults of its
    own. *)
Theorem C73_immutable_read_apart : forall p ds cs fuel n d c got h a h' i f arg x,
  nth_error ds n = Some d -> nth_error cs n = Some c ->
  NoDup (map d_name d) -> NoDup (parameters d) ->
  nth_error d i = Some f -> nth_error (c_args c) i = Some arg ->
  d_def f = Some x -> object_literal x = true -> assoc (d_name f) got = None ->
  read_immutable p ds cs fuel n got h = HOk (HRef a) h' ->
  exists l, attr a (d_name f) h' = Some (HRef l) /\ (length h <= l)%nat.
Proof.
  intros p ds cs fuel n d c got h a h' i f arg x Hd Hc Hn Hp Hf Ha Hx Ho Hno H.
  pose proof (heval_grows p ds cs fuel) as He.
  unfold read_immutable in H. rewrite Hd in H.
  apply hbind_ok in H as (kw & h1 & H1 & H).
  destruct (hmap_kw p ds cs fuel got d h kw h1 Hp H1) as [G K].
  destruct (K i f Hf Hno) as (v & h2 & h3 & A1 & A2 & A3).
  destruct (default_arg_fresh p ds fuel cs f h2 v h3 A2) as (_ & F & M).
  unfold made in M. rewrite Hx in M. destruct (proj1 M Ho) as [lv ->]. cbn [fresh_in] in F.
  unfold new in H. rewrite Hd, Hc in H. destruct (forallb _ kw); [|discriminate].
  apply hbind_ok in H as (r & h4 & H4 & H). cbn [alloc] in H. injection H as <- <-.
  destruct (init_all_attr _ c kw He d (c_args c) h1 r h4 i f arg Hn H4 Hf Ha)
    as (h5 & h6 & w & B1 & B2 & B3 & B4).
  assert (R : exists l, w = HRef l /\ (length h <= l)%nat).
  { apply grows_length in A1. apply grows_length in G. pose proof (grows_length _ _ B1) as B1'.
    unfold init_field in B2. rewrite A3, Hx in B2.
    destruct (d_cont f); [|injection B2 as <- _; exists lv; split; [reflexivity|lia]].
    destruct (c_spec c) as [sp|]; [|discriminate].
    destruct (zassoc (d_id f) sp) as [z|]; [|discriminate].
    destruct (same (HRef lv) z).
    - destruct (heval_fresh p ds cs fuel x h5 w h6 B2) as (_ & F2 & L2).
      destruct (proj1 L2 Ho) as [l ->]. cbn [fresh_in] in F2. exists l. split; [reflexivity|lia].
    - injection B2 as <- _. exists lv. split; [reflexivity|lia]. }
  destruct R as (l & -> & Hl). exists l. split; [|assumption].
  unfold attr. rewrite nth_error_app2 by lia. rewrite Nat.sub_diag. exact B4.
Qed.

(** * Classes that cannot be used *)

Definition compared (f : dfield) : bool :=
  d_cont f && match d_def f with Some _ => true | None => false end.

(** (defect) With a negative id in the class and a default that is compared,
    nothing can be constructed. *)
Theorem C73_negative_fails : forall p ds fuel cs h0 n d ev kw h,
  load p ds fuel = HOk cs h0 -> nth_error ds n = Some d ->
  negative d = true -> existsb compared d = true ->
  (forall m v, In (m, v) kw -> In m (parameters d)) ->
  new ds cs ev n kw h = HRaise EIndexError.
Proof.
  intros p ds fuel cs h0 n d ev kw h Hl Hd Hneg Hc Hkw.
  destruct (loaded_class p ds fuel cs h0 n d Hl Hd) as (c & h1 & Ec & (Ha & sp & Esp & Hsp) & _).
  unfold spec_ok in Hsp. rewrite Hneg in Hsp. subst sp.
  unfold new. rewrite Hd, Ec. replace (forallb _ kw) with true.
  2: { symmetry. apply forallb_forall. intros [m v] Hm. apply mem_In. apply (Hkw m v Hm). }
  replace (init_all ev d (c_args c) c kw h) with (@HRaise (list (string * hv)) EIndexError); [reflexivity|].
  symmetry. clear Hd Hneg Hkw. revert Hc. induction Ha as [|f a d args _ _ IH]; intros Hc; [discriminate|].
  cbn [existsb init_all] in *. unfold init_field, compared in *.
  destruct (d_cont f); cbn [andb] in Hc.
  - destruct (d_def f); [rewrite Esp; reflexivity|]. cbn [orb hbind] in *. rewrite IH by assumption. reflexivity.
  - cbn [orb hbind] in *. rewrite IH by assumption. reflexivity.
Qed.

(** The default makes an object of class [n]. *)
Fixpoint mentions (n : nat) (x : pexpr) : bool :=
  match x with
  | XList _ l | XSet _ l => existsb (mentions n) l
  | XDict _ l => existsb (fun kv => match kv with (k, y) => mentions n k || mentions n y end) l
  | XNew m l => (m =? n)%nat || existsb (fun kv => match kv with (_, y) => mentions n y end) l
  | _ => false
  end.

Lemma hmap_each A B (f : A -> heap -> hres B) : forall l h ys h' x, hmap f l h = HOk ys h' -> In x l ->
  exists h1 y h2, f x h1 = HOk y h2.
Proof.
  induction l as [|z l IH]; intros h ys h' x H Hx; [destruct Hx|]. cbn [hmap] in H.
  apply hbind_ok in H as (y & h1 & H1 & H). apply hbind_ok in H as (t & h2 & H2 & H).
  destruct Hx as [->|Hx]; [eauto|]. apply (IH h1 t h2 x H2 Hx).
Qed.

Lemma mentions_new p ds cs fuel n : forall x h v h', heval p ds cs (S fuel) x h = HOk v h' ->
  mentions n x = true ->
  exists kw h1 w h2, new ds cs (heval p ds cs fuel) n kw h1 = HOk w h2.
Proof.
  intros x. induction x as [x Hx|i l IH|i l IH|i l IH|m l IH] using pexpr_nested; intros h v h' H Hm.
  - destruct x; try discriminate; contradiction.
  - cbn [heval] in H. apply hbind_ok in H as (vs & h1 & H1 & _). cbn [mentions] in Hm.
    apply existsb_exists in Hm as (y & Hy & Hm).
    destruct (hmap_each _ _ _ _ _ _ _ y H1 Hy) as (h2 & z & h3 & E).
    rewrite Forall_forall in IH. apply (IH y Hy h2 z h3 E Hm).
  - cbn [heval] in H. apply hbind_ok in H as (vs & h1 & H1 & _). cbn [mentions] in Hm.
    apply existsb_exists in Hm as (y & Hy & Hm).
    destruct (hmap_each _ _ _ _ _ _ _ y H1 Hy) as (h2 & z & h3 & E).
    rewrite Forall_forall in IH. apply (IH y Hy h2 z h3 E Hm).
  - cbn [heval] in H. apply hbind_ok in H as (vs & h1 & H1 & _). cbn [mentions] in Hm.
    apply existsb_exists in Hm as ([k y] & Hy & Hm).
    destruct (hmap_each _ _ _ _ _ _ _ (k, y) H1 Hy) as (h2 & z & h3 & E).
    apply hbind_ok in E as (a & h4 & E1 & E). apply hbind_ok in E as (b & h5 & E2 & _).
    rewrite Forall_forall in IH. destruct (IH (k, y) Hy) as [I1 I2]. cbn [fst snd] in *.
    apply orb_prop in Hm as [Hm|Hm]; [apply (I1 h2 a h4 E1 Hm)|apply (I2 h4 b h5 E2 Hm)].
  - cbn [heval] in H. apply hbind_ok in H as (kw & h1 & H1 & H). cbn [mentions] in Hm.
    apply orb_prop in Hm as [Hm|Hm].
    + apply Nat.eqb_eq in Hm. subst m. eauto.
    + apply existsb_exists in Hm as ([k y] & Hy & Hm).
      destruct (hmap_each _ _ _ _ _ _ _ (k, y) H1 Hy) as (h2 & z & h3 & E).
      destruct (str_literal k) as [s|]; [|discriminate].
      apply hbind_ok in E as (a & h4 & E1 & _).
      rewrite Forall_forall in IH. apply (IH (k, y) Hy h2 a h4 E1 Hm).
Qed.

Lemma Forall2_length A B (P : A -> B -> Prop) l m : Forall2 P l m -> length l = length m.
Proof. intros F. induction F; cbn [length]; congruence. Qed.

(** When the class with the default was defined, [n] was there and could be
    constructed. *)
Definition unspecified (d : dclass) (c : cls) : Prop :=
  c_spec c = None /\ length (c_args c) = length d.

Lemma define_mentions p ds fuel n todo : forall pre cs h cs' h' m d f x,
  define p ds fuel todo cs h = HOk cs' h' -> ds = pre ++ todo -> Forall2 unspecified pre cs ->
  nth_error todo m = Some d -> In f d -> d_def f = Some x -> mentions n x = true ->
  exists cs1 fuel' kw h1 w h2, length cs1 = (length cs + m)%nat
    /\ (exists post, Forall2 unspecified (firstn (length cs1) ds) cs1 /\ ds = firstn (length cs1) ds ++ post)
    /\ new ds cs1 (heval p ds cs1 fuel') n kw h1 = HOk w h2.
Proof.
  induction todo as [|e todo IH]; intros pre cs h cs' h' m d f x H Hp Hs Hd Hf Hx Hm; [destruct m; discriminate|].
  cbn [define] in H. apply hbind_ok in H as (args & h1 & H1 & H).
  destruct m as [|m]; cbn [nth_error] in Hd.
  - injection Hd as ->. destruct (hmap_each _ _ _ _ _ _ _ f H1 Hf) as (h2 & y & h3 & E).
    unfold default_arg in E. rewrite Hx in E. destruct fuel as [|fuel']; [discriminate|].
    destruct (mentions_new p ds cs fuel' n x h2 y h3 E Hm) as (kw & h4 & w & h5 & N).
    exists cs, fuel', kw, h4, w, h5. split; [lia|]. split; [|assumption].
    exists (d :: todo). rewrite <- (Forall2_length _ _ _ _ _ Hs).
    assert (Ef : firstn (length pre) ds = pre).
    { rewrite Hp, firstn_app, Nat.sub_diag, firstn_all. cbn [firstn]. apply app_nil_r. }
    rewrite Ef. auto.
  - destruct (IH (pre ++ [e]) _ _ _ _ m d f x H) as (cs1 & fuel' & kw & h4 & w & h5 & L & S & N); auto.
    { rewrite <- app_assoc. assumption. }
    { apply Forall2_app; [assumption|]. constructor; [|constructor]. split; [reflexivity|].
      cbn [c_args]. apply default_args_ok in H1 as [_ F]. symmetry. apply (Forall2_length _ _ _ _ _ F). }
    exists cs1, fuel', kw, h4, w, h5. split; [|auto]. rewrite L, app_length. cbn [length]. lia.
Qed.

Lemma init_all_unspecified ev c kw : c_spec c = None -> forall d args h r h',
  length args = length d -> init_all ev d args c kw h = HOk r h' -> existsb compared d = false.
Proof.
  intros Hs. induction d as [|f d IH]; intros [|a args] h r h' Hl H; try discriminate; [reflexivity|].
  cbn [init_all] in H. apply hbind_ok in H as (v & h1 & H1 & H). apply hbind_ok in H as (t & h2 & H2 & _).
  cbn [existsb]. cbn [length] in Hl. rewrite (IH args h1 t h2) by (assumption || lia).
  unfold init_field in H1. unfold compared. destruct (d_cont f); [|reflexivity].
  destruct (d_def f); [|reflexivity]. rewrite Hs in H1. discriminate.
Qed.

(** (defect) A default that makes an object of a struct that has itself a default
    that is compared: types.py cannot be imported. *)
Theorem C73_nested_default_fails : forall p ds fuel n d f x e,
  In d ds -> In f d -> d_def f = Some x -> mentions n x = true ->
  nth_error ds n = Some e -> existsb compared e = true ->
  forall cs h, load p ds fuel <> HOk cs h.
Proof.
  intros p ds fuel n d f x e Hin Hf Hx Hm He Hc cs h H.
  apply In_nth_error in Hin as [m Hd].
  unfold load in H. apply hbind_ok in H as (cs1 & h1 & H & _).
  destruct (define_mentions p ds fuel n ds [] [] [] cs1 h1 m d f x H) as
    (cs2 & fuel' & kw & h2 & w & h3 & _ & (post & S & Hp) & N); auto.
  unfold new in N. rewrite He in N. destruct (nth_error cs2 n) as [c|] eqn:E; [|discriminate].
  destruct (forallb _ kw); [|discriminate]. apply hbind_ok in N as (r & h4 & N & _).
  assert (U : unspecified e c).
  { assert (Hlt : (n < length cs2)%nat) by (apply nth_error_Some; congruence).
    rewrite Hp in He. rewrite nth_error_app1 in He by (rewrite (Forall2_length _ _ _ _ _ S); assumption).
    clear - S E He. revert n E He. induction S as [|d' c' l l' H S IH]; intros [|n] E He; try discriminate.
    - cbn [nth_error] in *. injection E as <-. injection He as <-. assumption.
    - cbn [nth_error] in *. apply (IH n); assumption. }
  destruct U as [U1 U2].
  rewrite (init_all_unspecified _ c kw U1 e (c_args c) h2 r h4 U2 N) in Hc. discriminate.
Qed.

(** (defect) The same if the struct is declared later, or is the one with the
    default. *)
Theorem C73_later_class_fails : forall p ds fuel n m d f x,
  nth_error ds m = Some d -> In f d -> d_def f = Some x -> mentions n x = true -> (m <= n)%nat ->
  forall cs h, load p ds fuel <> HOk cs h.
Proof.
  intros p ds fuel n m d f x Hd Hf Hx Hm Hle cs h H.
  unfold load in H. apply hbind_ok in H as (cs1 & h1 & H & _).
  destruct (define_mentions p ds fuel n ds [] [] [] cs1 h1 m d f x H) as
    (cs2 & fuel' & kw & h2 & w & h3 & L & _ & N); auto.
  unfold new in N. destruct (nth_error ds n); [|discriminate].
  replace (nth_error cs2 n) with (@None cls) in N; [discriminate|].
  symmetry. apply nth_error_None. cbn [length] in L. lia.
Qed.

(** * What a default reads as *)

(** The object behind [v], as the value models write it. *)
Fixpoint shows (k : nat) (h : heap) (v : hv) : option pv :=
  match k with
  | O => None
  | S k' =>
      match v with
      | HNone => None
      | HVal x => Some (PVal x)
      | HMem e z => Some (PMember e z)
      | HRef l =>
          match nth_error h l with
          | Some (HList i vs) => option_map (PList i) (mapo (shows k' h) vs)
          | Some (HSet i vs) => option_map (PSet i) (mapo (shows k' h) vs)
          | Some (HDict i vs) => option_map (PMap i) (mapo2 (shows k' h) (shows k' h) vs)
          | _ => None
          end
      end
  end.

(** No struct in it. *)
Fixpoint structless (x : pexpr) : bool :=
  match x with
  | XList _ l | XSet _ l => forallb structless l
  | XDict _ l => forallb (fun kv => match kv with (k, y) => structless k && structless y end) l
  | XNew _ _ => false
  | _ => true
  end.

(** [h] has what was made between [h1] and [h2], unchanged. *)
Definition keeps (h1 h2 h : heap) : Prop :=
  forall l, (length h1 <= l < length h2)%nat -> nth_error h l = nth_error h2 l.
Definition reads (h1 h2 : heap) (v : hv) (y : pv) : Prop :=
  exists k, forall k' h, (k <= k')%nat -> keeps h1 h2 h -> shows k' h v = Some y.

Lemma reads_wider a b c z v y : grows a b -> grows b c -> grows c z ->
  reads b c v y -> reads a z v y.
Proof.
  intros G1 G2 G3 [k H]. exists k. intros k' h Hk K. apply H; [assumption|].
  intros l Hl. apply grows_length in G1. pose proof (grows_length _ _ G3) as L3.
  rewrite K by lia. destruct G3 as [t3 ->]. apply nth_error_app1. lia.
Qed.

Lemma reads_list a b vs ys : Forall2 (reads a b) vs ys ->
  exists k, forall k' h, (k <= k')%nat -> keeps a b h -> mapo (shows k' h) vs = Some ys.
Proof.
  intros F. induction F as [|v y vs ys [k1 H1] F [k2 H2]].
  - exists O. reflexivity.
  - exists (k1 + k2)%nat. intros k' h Hk K. apply mapo_cons; [apply H1|apply H2]; auto; lia.
Qed.
Lemma reads_pairs a b vs ys :
  Forall2 (fun v y => reads a b (fst v) (fst y) /\ reads a b (snd v) (snd y)) vs ys ->
  exists k, forall k' h, (k <= k')%nat -> keeps a b h -> mapo2 (shows k' h) (shows k' h) vs = Some ys.
Proof.
  intros F. unfold mapo2. induction F as [|[v1 v2] [y1 y2] vs ys [[k0 H0] [k1 H1]] F [k2 H2]].
  - exists O. reflexivity.
  - exists (k0 + k1 + k2)%nat. intros k' h Hk K. cbn [fst snd] in *.
    apply mapo_cons; [|apply H2; auto; lia]. cbn [fst snd].
    rewrite H0, H1 by (auto; lia). reflexivity.
Qed.

Lemma reads_alloc a b o v y : grows a b ->
  v = HRef (length b) ->
  (exists k, forall k' h, (k <= k')%nat -> keeps a b h ->
     match o with
     | HList i vs => option_map (PList i) (mapo (shows k' h) vs)
     | HSet i vs => option_map (PSet i) (mapo (shows k' h) vs)
     | HDict i vs => option_map (PMap i) (mapo2 (shows k' h) (shows k' h) vs)
     | HObj _ _ => None
     end = Some y) ->
  reads a (b ++ [o]) v y.
Proof.
  intros G -> [k H]. exists (S k). intros [|k'] h Hk K; [lia|].
  apply grows_length in G.
  cbn [shows]. rewrite K by (rewrite app_length; cbn [length]; lia).
  rewrite nth_error_app2 by lia. rewrite Nat.sub_diag. cbn [nth_error].
  assert (K' : keeps a b h).
  { intros l Hl. rewrite K by (rewrite app_length; lia). apply nth_error_app1. lia. }
  specialize (H k' h ltac:(lia) K'). destruct o; exact H.
Qed.

(** Elements and keys that hash are no objects. *)
Lemma hset_atoms ys : forallb hashes ys = true -> forall acc, forallb hashes acc = true ->
  fold_left hset_add (map of_atom ys) (map of_atom acc) = map of_atom (fold_left pset_add ys acc)
  /\ forallb hashes (fold_left pset_add ys acc) = true.
Proof.
  induction ys as [|y ys IH]; intros Hy acc Ha; [split; [reflexivity|assumption]|].
  cbn [forallb] in Hy. apply andb_prop in Hy as [Hy Hys]. cbn [map fold_left].
  assert (E : hset_add (map of_atom acc) (of_atom y) = map of_atom (pset_add acc y)
              /\ forallb hashes (pset_add acc y) = true).
  { unfold hset_add, pset_add.
    replace (existsb (atom_eqb (of_atom y)) (map of_atom acc)) with (existsb (pkey_eqb y) acc).
    - destruct (existsb (pkey_eqb y) acc); [auto|]. rewrite map_app, forallb_app. cbn [map forallb].
      rewrite Ha, Hy. auto.
    - clear - Hy Ha. induction acc as [|z acc IH]; [reflexivity|]. cbn [forallb] in Ha.
      apply andb_prop in Ha as [Hz Ha]. cbn [map existsb]. rewrite (IH Ha). f_equal.
      unfold atom_eqb. destruct y, z; try discriminate; reflexivity. }
  destruct E as [-> E]. apply IH; assumption.
Qed.
Lemma shows_atoms ys : forallb hashes ys = true -> forall k h, mapo (shows (S k) h) (map of_atom ys) = Some ys.
Proof.
  induction ys as [|y ys IH]; intros H k h; [reflexivity|]. cbn [forallb] in H.
  apply andb_prop in H as [Hy H]. cbn [map]. apply mapo_cons; [|apply IH; assumption].
  destruct y; try discriminate; reflexivity.
Qed.

Lemma hdict_atoms k x : hashes k = true -> forall (d1 : list (hv * hv)) (d2 : list (pv * pv)) (R : hv -> pv -> Prop) w,
  Forall2 (fun a b => (hashes (fst b) = true /\ fst a = of_atom (fst b)) /\ R (snd a) (snd b)) d1 d2 -> R w x ->
  Forall2 (fun a b => (hashes (fst b) = true /\ fst a = of_atom (fst b)) /\ R (snd a) (snd b))
    (hdict_set d1 (of_atom k) w) (pdict_set d2 k x).
Proof.
  intros Hk d1 d2 R w F Hw. induction F as [|[a1 a2] [b1 b2] d1 d2 [[H1 H2] H3] F IH].
  - cbn [hdict_set pdict_set]. constructor; [|constructor]. cbn [fst snd]. auto.
  - cbn [fst snd] in *. subst a1. cbn [hdict_set pdict_set].
    replace (atom_eqb (of_atom k) (of_atom b1)) with (pkey_eqb k b1)
      by (unfold atom_eqb; destruct k, b1; try discriminate; reflexivity).
    destruct (pkey_eqb k b1); constructor; auto.
Qed.

Definition literal_ok p ds cs fuel (x : pexpr) : Prop :=
  forall h y, structless x = true -> eval p x = POk y ->
  exists v h', heval p ds cs (S fuel) x h = HOk v h' /\ grows h h' /\ reads h h' v y
    /\ hashes_h v = hashes y /\ (hashes y = true -> v = of_atom y).

Lemma reads_atom h h' y : hashes y = true -> reads h h' (of_atom y) y.
Proof.
  intros H. exists 1%nat. intros [|k'] h2 Hk _; [lia|]. destruct y; try discriminate; reflexivity.
Qed.

Lemma literals_ok p ds cs fuel l : Forall (literal_ok p ds cs fuel) l -> forall h ys,
  forallb structless l = true -> mapp (eval p) l = POk ys ->
  exists vs h', hmap (heval p ds cs (S fuel)) l h = HOk vs h' /\ grows h h' /\ Forall2 (reads h h') vs ys
    /\ map hashes_h vs = map hashes ys /\ (forallb hashes ys = true -> vs = map of_atom ys).
Proof.
  intros F. induction F as [|x l Hx F IH]; intros h ys Hs H.
  - cbn [mapp] in H. injection H as <-. exists [], h. cbn [hmap]. split; [reflexivity|].
    split; [apply grows_refl|]. split; [constructor|]. auto.
  - cbn [forallb] in Hs. apply andb_prop in Hs as [Hs1 Hs2]. cbn [mapp] in H.
    destruct (eval p x) as [y| |] eqn:E; try discriminate.
    destruct (mapp (eval p) l) as [t| |] eqn:M; try discriminate. injection H as <-.
    destruct (Hx h y Hs1 E) as (v & h1 & A1 & A2 & A3 & A4 & A5).
    destruct (IH h1 t Hs2 eq_refl) as (vs & h2 & B1 & B2 & B3 & B4 & B5).
    exists (v :: vs), h2. cbn [hmap]. rewrite A1. cbn [hbind]. rewrite B1. cbn [hbind].
    split; [reflexivity|]. split; [apply (grows_trans _ h1); assumption|].
    split; [|split].
    + constructor; [apply (reads_wider h h h1 h2); auto using grows_refl|].
      revert B3. apply Forall2_impl. intros a b. apply (reads_wider h h1 h2 h2); auto using grows_refl.
    + cbn [map]. rewrite A4, B4. reflexivity.
    + cbn [forallb map]. intros Hh. apply andb_prop in Hh as [Hh1 Hh2].
      rewrite A5, B5 by assumption. reflexivity.
Qed.

Lemma hashes_same vs ys : map hashes_h vs = map hashes ys -> forallb hashes_h vs = forallb hashes ys.
Proof.
  revert ys. induction vs as [|v vs IH]; intros [|y ys] H; try discriminate; [reflexivity|].
  cbn [map] in H. injection H as H1 H2. cbn [forallb]. rewrite H1, (IH ys H2). reflexivity.
Qed.

Lemma pairs_ok p ds cs fuel l :
  Forall (fun kx => literal_ok p ds cs fuel (fst kx) /\ literal_ok p ds cs fuel (snd kx)) l -> forall h ys,
  forallb (fun kv => match kv with (k, y) => structless k && structless y end) l = true ->
  mapp (eval_pair p) l = POk ys ->
  exists vs h', hmap (fun kx h => match kx with
                                  | (k, x) => hbind (heval p ds cs (S fuel) k h) (fun a h1 =>
                                              hbind (heval p ds cs (S fuel) x h1) (fun b h2 => HOk (a, b) h2))
                                  end) l h = HOk vs h'
    /\ grows h h'
    /\ Forall2 (fun a b => reads h h' (snd a) (snd b) /\ hashes_h (fst a) = hashes (fst b)
                           /\ (hashes (fst b) = true -> fst a = of_atom (fst b))) vs ys.
Proof.
  intros F. induction F as [|[k x] l [Hk Hx] F IH]; intros h ys Hs H.
  - cbn [mapp] in H. injection H as <-. exists [], h. cbn [hmap]. split; [reflexivity|].
    split; [apply grows_refl|constructor].
  - cbn [forallb fst snd] in *. apply andb_prop in Hs as [Hs1 Hs2]. apply andb_prop in Hs1 as [Hs0 Hs1].
    cbn [mapp] in H. unfold eval_pair at 1 in H. cbn [fst snd] in H.
    destruct (eval p k) as [yk| |] eqn:E0; try discriminate.
    destruct (eval p x) as [y| |] eqn:E; try discriminate.
    destruct (mapp (eval_pair p) l) as [t| |] eqn:M; try discriminate. injection H as <-.
    destruct (Hk h yk Hs0 E0) as (vk & h0 & C1 & C2 & C3 & C4 & C5).
    destruct (Hx h0 y Hs1 E) as (v & h1 & A1 & A2 & A3 & A4 & A5).
    destruct (IH h1 t Hs2 eq_refl) as (vs & h2 & B1 & B2 & B3).
    assert (G1 : grows h h1) by (apply (grows_trans _ h0); assumption).
    exists ((vk, v) :: vs), h2. cbn [hmap]. rewrite C1. cbn [hbind]. rewrite A1. cbn [hbind].
    rewrite B1. cbn [hbind].
    split; [reflexivity|]. split; [apply (grows_trans _ h1); assumption|].
    constructor.
    + cbn [fst snd]. split; [apply (reads_wider h h0 h1 h2); assumption|]. auto.
    + revert B3. apply Forall2_impl. intros a b (D1 & D2 & D3). split; [|auto].
      apply (reads_wider h h1 h2 h2); auto using grows_refl.
Qed.

Lemma literal_reads p ds cs fuel : forall x, literal_ok p ds cs fuel x.
Proof.
  intros x. induction x as [x Hx|i l IH|i l IH|i l IH|n l IH] using pexpr_nested; intros h y Hs E.
  - assert (Hy : hashes y = true).
    { destruct x; try contradiction; cbn [eval] in E;
        repeat match type of E with
               | match ?o with _ => _ end = _ => destruct o; try discriminate
               end; injection E as <-; reflexivity. }
    exists (of_atom y), h. split.
    { destruct x; try contradiction; cbn [heval]; rewrite E; reflexivity. }
    split; [apply grows_refl|]. split; [apply reads_atom; assumption|].
    split; [|reflexivity]. rewrite Hy. destruct y; try discriminate; reflexivity.
  - rewrite eval_list in E. destruct (mapp (eval p) l) as [ys| |] eqn:M; try discriminate.
    injection E as <-.
    destruct (literals_ok p ds cs fuel l IH h ys Hs M) as (vs & h1 & A1 & A2 & A3 & _).
    eexists _, _. split; [|split; [|split; [|split]]].
    + cbn [heval]. cbn [heval] in A1. rewrite A1. reflexivity.
    + apply (grows_trans _ h1); [assumption|apply grows_alloc].
    + apply reads_alloc; [assumption|reflexivity|].
      destruct (reads_list h h1 vs ys A3) as [k K]. exists k. intros k' h2 Hk Hh.
      rewrite (K k' h2 Hk Hh). reflexivity.
    + reflexivity.
    + discriminate.
  - rewrite eval_set in E. destruct (mapp (eval p) l) as [ys| |] eqn:M; try discriminate.
    destruct (forallb hashes ys) eqn:Hh; [|discriminate]. injection E as <-.
    destruct (literals_ok p ds cs fuel l IH h ys Hs M) as (vs & h1 & A1 & A2 & A3 & A4 & A5).
    eexists _, _. split; [|split; [|split; [|split]]].
    + cbn [heval]. cbn [heval] in A1. rewrite A1. cbn [hbind].
      rewrite (hashes_same vs ys A4), Hh. reflexivity.
    + apply (grows_trans _ h1); [assumption|apply grows_alloc].
    + apply reads_alloc; [assumption|reflexivity|]. rewrite (A5 Hh).
      destruct (hset_atoms ys Hh [] eq_refl) as [B1 B2]. cbn [map] in B1. rewrite B1.
      exists 1%nat. intros [|k'] h2 Hk _; [lia|]. rewrite (shows_atoms _ B2). reflexivity.
    + reflexivity.
    + discriminate.
  - rewrite eval_dict in E. destruct (mapp (eval_pair p) l) as [ys| |] eqn:M; try discriminate.
    destruct (forallb _ ys) eqn:Hh; [|discriminate]. injection E as <-.
    destruct (pairs_ok p ds cs fuel l IH h ys Hs M) as (vs & h1 & A1 & A2 & A3).
    assert (Hh' : forallb (fun ab => hashes_h (fst ab)) vs = true).
    { clear - A3 Hh. induction A3 as [|a b vs ys (_ & H & _) _ IH]; [reflexivity|].
      cbn [forallb] in *. apply andb_prop in Hh as [Hh1 Hh2]. rewrite H, Hh1. apply IH. assumption. }
    eexists _, _. split; [|split; [|split; [|split]]].
    + cbn [heval]. cbn [heval] in A1. rewrite A1. cbn [hbind]. rewrite Hh'. reflexivity.
    + apply (grows_trans _ h1); [assumption|apply grows_alloc].
    + apply reads_alloc; [assumption|reflexivity|].
      assert (F : Forall2 (fun a b => (hashes (fst b) = true /\ fst a = of_atom (fst b)) /\ reads h h1 (snd a) (snd b))
                    (fold_left (fun t ab => hdict_set t (fst ab) (snd ab)) vs [])
                    (fold_left (fun t kv => pdict_set t (fst kv) (snd kv)) ys [])).
      { clear - A3 Hh. assert (F0 : Forall2 (fun a b => (hashes (fst b) = true /\ fst a = of_atom (fst b)) /\ reads h h1 (snd a) (snd b))
          (@nil (hv * hv)) (@nil (pv * pv))) by constructor.
        revert F0. generalize (@nil (hv * hv)) (@nil (pv * pv)).
        induction A3 as [|a b vs ys (H1 & H2 & H3) _ IH]; intros d1 d2 F0; [exact F0|].
        cbn [forallb] in Hh. apply andb_prop in Hh as [Hh1 Hh2]. cbn [fold_left]. apply IH; [assumption|].
        rewrite (H3 Hh1). apply hdict_atoms; assumption. }
      assert (F' : Forall2 (fun v y => reads h h1 (fst v) (fst y) /\ reads h h1 (snd v) (snd y))
                     (fold_left (fun t ab => hdict_set t (fst ab) (snd ab)) vs [])
                     (fold_left (fun t kv => pdict_set t (fst kv) (snd kv)) ys [])).
      { revert F. apply Forall2_impl. intros a b [[Q1 Q2] Q3]. split; [|assumption].
        rewrite Q2. apply reads_atom. assumption. }
      destruct (reads_pairs h h1 _ _ F') as [k K].
      exists k. intros k' h2 Hk Hh2. rewrite (K k' h2 Hk Hh2). reflexivity.
    + reflexivity.
    + discriminate.
  - discriminate Hs.
Qed.

(** A default without structs in it is made of new objects and reads as the
    constant it is (C72), as long as these are not changed. *)
Theorem C73_value : forall p ds cs fuel x y h,
  structless x = true -> eval p x = POk y ->
  exists v h', heval p ds cs (S fuel) x h = HOk v h' /\ reads h h' v y.
Proof.
  intros p ds cs fuel x y h Hs E.
  destruct (literal_reads p ds cs fuel x h y Hs E) as (v & h' & A1 & _ & A3 & _). eauto.
Qed.

(** * Cases *)

(* struct Box { 1: list<i32> l = [1, 2], 2: i32 n = 7, 3: string s }
   struct Odd { -1: i32 k, 1: list<i32> l = [] }
   struct In { 1: i32 n = 3 }   struct Out { 1: In i = {} } *)
Definition num (z : Z) : pexpr := XInt (int_text z).
Definition Box : dclass :=
  [mkdfield "l" 1 true (Some (XList false [num 1; num 2])); mkdfield "n" 2 false (Some (num 7));
   mkdfield "s" 3 false None].
Definition Odd : dclass :=
  [mkdfield "k" (-1) false None; mkdfield "l" 1 true (Some (XList false []))].
Definition In_ : dclass := [mkdfield "n" 1 false (Some (num 3))].
Definition Out : dclass := [mkdfield "i" 1 true (Some (XNew 2 []))].
Definition prog : list dclass := [Box; Odd; In_; Out].
Definition no_enums : gprog := mkgprog false false [] [].

Definition st : list cls * heap :=
  match load no_enums prog 3 with HOk cs h => (cs, h) | _ => ([], []) end.
Definition make (n : nat) (kw : list (string * hv)) (h : heap) : hres hv :=
  new prog (fst st) (heval no_enums prog (fst st) 3) n kw h.

Definition ints : hobj := HList false [HVal (VInt 1); HVal (VInt 2)].

(* two lists for Box.l, two structs for Out.i *)
Example C73_load_used :
  load no_enums prog 3
  = HOk [mkcls [HRef 0; HVal (VInt 7); HNone] (Some [(1%Z, HRef 3); (2%Z, HVal (VInt 7)); (3%Z, HNone)]);
         mkcls [HNone; HRef 1] (Some []);
         mkcls [HVal (VInt 3)] (Some [(1%Z, HVal (VInt 3))]);
         mkcls [HRef 2] (Some [(1%Z, HRef 4)])]%nat
      [ints; HList false []; HObj 2 [("n"%string, HVal (VInt 3))];
       ints; HObj 2 [("n"%string, HVal (VInt 3))]].
Proof. vm_compute. reflexivity. Qed.

Definition names (h : heap) : list (option hv) := map (fun l => attr l "l" h) (seq 5 3).

(* a = Box(); b = Box(n=8); a.l.append(3); c = Box(); c.l is [1, 2, 3] *)
Example C73_shared_used :
  hbind (make 0 [] (snd st)) (fun a h1 =>
  hbind (make 0 [("n"%string, HVal (VInt 8))] h1) (fun b h2 =>
  match append 0 (HVal (VInt 3)) h2 with
  | None => HDiverge
  | Some h3 => hbind (make 0 [] h3) (fun c h4 =>
                 HOk ([a; b; c], names h4, nth_error h4 0, attr 6 "n" h4) [])
  end))
  = HOk ([HRef 5; HRef 6; HRef 7], [Some (HRef 0); Some (HRef 0); Some (HRef 0)],
         Some (HList false [HVal (VInt 1); HVal (VInt 2); HVal (VInt 3)]), Some (HVal (VInt 8)))%nat [].
Proof. vm_compute. reflexivity. Qed.

(* Box(l=Box.thrift_spec[1][4]) has a list of its own *)
Example C73_copied_used :
  hbind (make 0 [("l"%string, HRef 3)] (snd st)) (fun a h1 => HOk (a, attr 6 "l" h1, nth_error h1 5) [])
  = HOk (HRef 6, Some (HRef 5), Some ints)%nat [].
Proof. vm_compute. reflexivity. Qed.

(* read without l: the shared list; by the Python reader of an immutable class: a new one *)
Example C73_read_used :
  hbind (read_mutable no_enums prog (fst st) 3 0 [("n"%string, HVal (VInt 9))] (snd st)) (fun a h1 =>
    HOk (attr 5 "l" h1, attr 5 "n" h1) [])
  = HOk (Some (HRef 0), Some (HVal (VInt 9)))%nat []
  /\ hbind (fast_immutable no_enums prog (fst st) 3 0 [("n"%string, HVal (VInt 9))] (snd st)) (fun a h1 =>
       HOk (attr 5 "l" h1, attr 5 "n" h1) [])
     = HOk (Some (HRef 0), Some (HVal (VInt 9)))%nat []
  /\ hbind (read_immutable no_enums prog (fst st) 3 0 [("n"%string, HVal (VInt 9))] (snd st)) (fun a h1 =>
       HOk (a, attr 6 "l" h1, attr 6 "n" h1) [])
     = HOk (HRef 6, Some (HRef 5), Some (HVal (VInt 9)))%nat [].
Proof. vm_compute. auto. Qed.

(* struct Odd { -1: i32 k, 1: list<i32> l = [] } *)
Example C73_negative_used :
  make 1 [] (snd st) = HRaise EIndexError /\ make 1 [("l"%string, HNone)] (snd st) = HRaise EIndexError.
Proof. vm_compute. auto. Qed.

(* struct Holder { 1: Box b = {} }   struct First { 1: In i = {} } struct In ... *)
Example C73_nested_used :
  load no_enums [Box; [mkdfield "b" 1 true (Some (XNew 0 []))]] 3 = HRaise ETypeError
  /\ load no_enums [[mkdfield "i" 1 true (Some (XNew 1 []))]; In_] 3 = HNameError
  /\ load no_enums [[mkdfield "i" 1 true (Some (XNew 0 []))]] 3 = HNameError.
Proof. vm_compute. auto. Qed.

(* map<i32, list<i32>> m = {1: [2], 1: [3]} *)
Example C73_value_used :
  let x := XDict false [(num 1, XList false [num 2]); (num 1, XList false [num 3])] in
  structless x = true
  /\ eval no_enums x = POk (PMap false [(PVal (VInt 1), PList false [PVal (VInt 3)])])
  /\ hbind (heval no_enums prog (fst st) 1 x []) (fun v h => HOk (v, shows 3 h v) [])
     = HOk (HRef 2, Some (PMap false [(PVal (VInt 1), PList false [PVal (VInt 3)])])) [].
Proof. vm_compute. auto. Qed.

(** Axioms used. *)
Print Assumptions C73_construct.
Print Assumptions C73_shared.
Print Assumptions C73_mutation_seen.
Print Assumptions C73_unshared.
Print Assumptions C73_copied.
Print Assumptions C73_read_shared.
Print Assumptions C73_fast_read_shared.
Print Assumptions C73_immutable_read_apart.
Print Assumptions C73_negative_fails.
Print Assumptions C73_nested_default_fails.
Print Assumptions C73_later_class_fails.
Print Assumptions C73_value.
