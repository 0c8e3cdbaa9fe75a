(** C76: what names find in the modules generated for a program. *)
From Coq Require Import String Ascii.
From Coq Require Import ZArith List Bool Lia.
From Verif Require Import Base GenClass Service ServiceFacts Modules ModulesFacts.
Import ListNotations.
Open Scope string_scope.
Open Scope list_scope.

(** * Which type a name finds *)

(** [latest p n t k]: of the types of the program whose names are written [n] in
    Python, [t] is the last that ttypes.py defines. *)

(** In ttypes.py, once imported: that one, unless the name is [all_structs]. *)
Theorem C76_ttypes : forall bs p g w, run bs (ttypes p) [] = Ok (g, w) ->
  forall n t k, lookup bs g n = Some (OType t k) <-> latest p n t k /\ n <> "all_structs".
Proof.
  intros bs p g w H n t k. apply ttypes_globals in H. subst g. unfold lookup. rewrite assoc_types.
  destruct (String.eqb_spec "all_structs" n) as [<-|Hn].
  - split; [destruct (mem _ bs); discriminate|]. intros [_ H]. congruence.
  - destruct (last_def n (map type_bind (type_list p))) as [o|] eqn:E.
    + apply types_last in E. destruct E as (t' & k' & -> & E). split.
      * intros H. injection H as <- <-. split; [exact E|congruence].
      * intros [H _]. assert (H' : last_def n (map type_bind (type_list p)) = Some (OType t k)) by (apply types_last; eauto).
        assert (E' : last_def n (map type_bind (type_list p)) = Some (OType t' k')) by (apply types_last; eauto). congruence.
    + split.
      * intros H. exfalso. destruct (last_def n (header_binds p)) eqn:Eh.
        -- apply (header_no_type p n t k). congruence.
        -- destruct (mem n bs); discriminate.
      * intros [H _]. assert (H' : last_def n (map type_bind (type_list p)) = Some (OType t k)) by (apply types_last; eauto).
        congruence.
Qed.

(** In constants.py, before its own assignments: so, unless the name begins with
    an underscore. *)
Theorem C76_constants : forall bs p g w g' w', run bs (ttypes p) [] = Ok (g, w) ->
  run bs (constants_header p g) [] = Ok (g', w') ->
  forall n t k, lookup bs g' n = Some (OType t k) <-> latest p n t k /\ n <> "all_structs" /\ public n = true.
Proof.
  intros bs p g w g' w' H H' n t k. pose proof (C76_ttypes bs p g w H n t k) as T. unfold lookup in *.
  apply run_binds in H'.
  - rewrite H', app_nil_r.
    change (assoc n (rev (binds (constants_header p g)))) with (last_def n (binds (constants_header p g))).
    unfold constants_header. rewrite binds_app, last_def_app, binds_star, binds_lib. unfold last_def at 1.
    rewrite rev_involutive, assoc_public.
    destruct (public n) eqn:Ep.
    + destruct (assoc n g) as [o|] eqn:Eg; [rewrite T; tauto|].
      split.
      * destruct (last_def n (map (fun m => (m, OLib m)) (py_imports p))) eqn:E.
        -- apply last_def_in in E. apply in_map_iff in E. destruct E as (x & E & _). intros X. congruence.
        -- destruct (mem n bs); discriminate.
      * intros (X & Y & _). assert (Z : (if mem n bs then Some (OLib n) else None) = Some (OType t k)) by (apply T; auto).
        destruct (mem n bs); discriminate.
    + split; [|intros (_ & _ & X); discriminate].
      destruct (last_def n (map (fun m => (m, OLib m)) (py_imports p))) eqn:E.
      * apply last_def_in in E. apply in_map_iff in E. destruct E as (x & E & _). intros X. congruence.
      * destruct (mem n bs); discriminate.
  - unfold constants_header. rewrite forallb_app, no_del_star, no_del_map by reflexivity. reflexivity.
Qed.

(** In the module of a service: so, unless the name begins with an underscore or
    the module itself binds it after importing the types. *)
Theorem C76_service : forall bs p s g w g' w', run bs (ttypes p) [] = Ok (g, w) ->
  run bs (service_module p s g) [] = Ok (g', w') ->
  forall n t k, lookup bs g' n = Some (OType t k) <->
    latest p n t k /\ public n = true /\ ~ In n (own_names s).
Proof.
  intros bs p s g w g' w' H H' n t k. pose proof (C76_ttypes bs p g w H n t k) as T. unfold lookup in *.
  rewrite (service_assoc _ _ _ _ _ _ H' n).
  destruct (String.eqb_spec "all_structs" n) as [<-|Hn].
  { split; [destruct (mem _ bs); discriminate|]. intros (_ & _ & X). exfalso. apply X. unfold own_names.
    rewrite !in_app_iff. right. left. left. reflexivity. }
  destruct (last_def n (late_binds s)) as [o|] eqn:El.
  { split.
    - intros X. exfalso. apply (late_no_type s n t k). congruence.
    - intros (_ & _ & X). apply late_in in X. congruence. }
  apply late_in in El. destruct (public n) eqn:Ep.
  - destruct (assoc n g) as [o|] eqn:Eg.
    + rewrite T. split; [tauto|]. intros (A & _). split; [exact A|congruence].
    + split.
      * destruct (last_def n (early_binds p s)) eqn:E.
        -- intros X. exfalso. apply (early_no_type p s n t k). congruence.
        -- destruct (mem n bs); discriminate.
      * intros (X & _). assert (Z : (if mem n bs then Some (OLib n) else None) = Some (OType t k)) by (apply T; split; [exact X|congruence]).
        destruct (mem n bs); discriminate.
  - split; [|intros (_ & X & _); discriminate].
    destruct (last_def n (early_binds p s)) eqn:E.
    + intros X. exfalso. apply (early_no_type p s n t k). congruence.
    + destruct (mem n bs); discriminate.
Qed.

(** So (defect) of two types written alike, such as [from] and [from_], only the
    later is ever found. *)
Theorem C76_written_alike_lost : forall bs p g w t k u l, run bs (ttypes p) [] = Ok (g, w) ->
  (exists a b c, type_list p = a ++ (t, k) :: b ++ (u, l) :: c) -> esc t = esc u -> (t, k) <> (u, l) ->
  NoDup (type_list p) -> forall n, lookup bs g n <> Some (OType t k).
Proof.
  intros bs p g w t k u l H (a & b & c & E) Et Hd Hnd n X.
  apply (C76_ttypes _ _ _ _ H) in X. destruct X as [(a' & b' & E' & En & Hb) _].
  assert (A : a = a' /\ b ++ (u, l) :: c = b').
  { rewrite E in E', Hnd. clear -E' Hnd. revert a' E' Hnd. induction a as [|x a IH]; intros [|y a'] E' Hnd; cbn [app] in *.
    - injection E' as E'. auto.
    - exfalso. injection E' as <- E'. inversion Hnd as [|? ? N _]. apply N. rewrite E'. apply in_elt.
    - exfalso. injection E' as -> E'. inversion Hnd as [|? ? N _]. apply N. apply in_elt.
    - injection E' as <- E'. inversion Hnd as [|? ? N Hnd']. destruct (IH a' E' Hnd') as [-> ->]. auto. }
  destruct A as [_ <-]. apply (Hb u l); [apply in_elt|congruence].
Qed.

(** * Which library object a name finds *)

(** The names the generated code takes from the library, in every module and in
    the module of a service only. *)
Definition imported (p : prog) : list string :=
  ["TType"; "TMessageType"; "TFrozenDict"; "TException"; "TApplicationException";
   "TProtocolException"; "fix_spec"; "UUID"]
  ++ (if p_enum p then ["IntEnum"] else [])
  ++ (if p_utf8 p then ["sys"] else []).
Definition imported_late (s : serv) : list string :=
  ["TProcessor"; "TTransport"]
  ++ (if m_zope s then ["Interface"; "implementer"] else [])
  ++ (match m_flavour s with
      | MSync => []
      | MTwisted => ["defer"; "TTwisted"]
      | MTornado => ["gen"; "concurrent"]
      end).

(** A library name in ttypes.py finds what the generator means by it, unless a
    type is written so (defect). *)
Theorem C76_library : forall bs p g w, run bs (ttypes p) [] = Ok (g, w) ->
  forall n, In n (bs ++ imported p ++ ["TTransport"]) -> n <> "all_structs" -> ~ In n (p_roots p) ->
  lookup bs g n = Some (OLib n) <-> forall t k, In (t, k) (type_list p) -> esc t <> n.
Proof.
  intros bs p g w H n Hn Ha Hr. change (imported p) with (py_imports p) in Hn. pose proof (ttypes_globals _ _ _ _ H). subst g. unfold lookup. rewrite assoc_types.
  destruct (String.eqb_spec "all_structs" n) as [E|_]; [congruence|]. rewrite <- types_none.
  destruct (last_def n (map type_bind (type_list p))) as [o|] eqn:E.
  - apply types_last in E. destruct E as (t & k & -> & _). split; discriminate.
  - split; [auto|]. intros _. destruct (last_def n (header_binds p)) as [o|] eqn:Eh.
    + apply last_def_in in Eh. unfold header_binds in Eh. rewrite !in_app_iff, !in_map_iff in Eh.
      destruct Eh as [(x & X & _)|[(x & X & Y)|[X|[X|[]]]]]; congruence.
    + rewrite last_def_none in Eh. rewrite !in_app_iff in Hn. destruct Hn as [Hn|[Hn|[<-|[]]]].
      * apply mem_In in Hn. rewrite Hn. reflexivity.
      * exfalso. apply (Eh (OLib n)). unfold header_binds. rewrite !in_app_iff, !in_map_iff. left. exists n. auto.
      * exfalso. apply (Eh (OLib "TTransport")). unfold header_binds. rewrite !in_app_iff. right. right. left. reflexivity.
Qed.
(** So for the package of an included program. *)
Theorem C76_package : forall bs p g w, run bs (ttypes p) [] = Ok (g, w) ->
  forall r, In r (p_roots p) -> ~ In r ["TTransport"; "all_structs"] ->
  lookup bs g r = Some (OPkg r) <-> forall t k, In (t, k) (type_list p) -> esc t <> r.
Proof.
  intros bs p g w H r Hr Ha. pose proof (ttypes_globals _ _ _ _ H). subst g. unfold lookup. rewrite assoc_types.
  destruct (String.eqb_spec "all_structs" r) as [E|_]; [exfalso; apply Ha; cbn [In]; auto|]. rewrite <- types_none.
  destruct (last_def r (map type_bind (type_list p))) as [o|] eqn:E.
  - apply types_last in E. destruct E as (t & k & -> & _). split; discriminate.
  - split; [auto|]. intros _. unfold header_binds. rewrite !last_def_app.
    rewrite (last_def_absent r [("TTransport", OLib "TTransport"); ("all_structs", OStructs)]).
    + rewrite (last_def_found r _ (OPkg r)); [reflexivity|apply in_map_iff; eauto|].
      intros o Ho. apply in_map_iff in Ho. destruct Ho as (x & X & _). congruence.
    + intros o [X|[X|[]]]; apply Ha; cbn [In]; injection X as X _; auto.
Qed.

(** * Importing *)

(** A program without clashes: its types are written differently from each
    other and from what ttypes.py uses, and packages too; references are to what
    is declared. *)
Definition reserved (p : prog) : list string := "object" :: "all_structs" :: "TTransport" :: py_imports p.
Definition ref_declared (p : prog) (r : ref) : Prop :=
  match r with ROwn t k => In (t, k) (type_list p) | RIncl q => In q (p_roots p) end.
Definition no_clash (p : prog) : Prop :=
  NoDup (map (fun x => esc (fst x)) (type_list p))
  /\ (forall t k, In (t, k) (type_list p) -> ~ In (esc t) (reserved p ++ p_roots p))
  /\ (forall r, In r (p_roots p) -> ~ In r (reserved p))
  /\ (forall d r, In d (p_objs p) -> In r (d_refs d) -> ref_declared p r).

Definition all_binds (p : prog) : globals := header_binds p ++ map type_bind (type_list p).
Lemma NoDup_key {A B} (f : A -> B) l : NoDup (map f l) -> forall x y, In x l -> In y l -> f x = f y -> x = y.
Proof.
  induction l as [|a l IH]; intros H x y Hx Hy E; [destruct Hx|]. cbn [map] in H. inversion H as [|? ? N H']. subst.
  destruct Hx as [->|Hx], Hy as [->|Hy]; auto; exfalso; apply N; [rewrite E|rewrite <- E]; apply in_map; assumption.
Qed.
Lemma no_clash_one p : no_clash p -> forall n o, In (n, o) (all_binds p) -> last_def n (all_binds p) = Some o.
Proof.
  intros (Hnd & Ht & Hr & _) n o Ho. apply last_def_found; [exact Ho|]. intros o' Ho'.
  assert (K : forall q, In (n, q) (all_binds p) ->
    (q = OLib n /\ In n (reserved p)) \/ (q = OStructs /\ n = "all_structs") \/ (q = OPkg n /\ In n (p_roots p))
    \/ exists x, In x (type_list p) /\ n = esc (fst x) /\ q = OType (fst x) (snd x)).
  { intros q Hq. unfold all_binds, header_binds in Hq. rewrite !in_app_iff, !in_map_iff in Hq.
    unfold reserved. destruct Hq as [[(x & E & X)|[(x & E & X)|[E|[E|[]]]]]|(x & E & X)].
    - injection E as <- <-. left. cbn [In]. auto.
    - injection E as <- <-. right. right. left. auto.
    - injection E as <- <-. left. cbn [In]. auto.
    - injection E as <- <-. auto.
    - unfold type_bind in E. injection E as <- <-. right. right. right. eauto. }
  assert (L : In "all_structs" (reserved p)) by (cbn [reserved In]; auto).
  assert (TT : forall x, In x (type_list p) -> ~ In (esc (fst x)) (reserved p) /\ ~ In (esc (fst x)) (p_roots p)).
  { intros [t k] Hx. specialize (Ht t k Hx). rewrite in_app_iff in Ht. cbn [fst]. tauto. }
  assert (S : ~ In "all_structs" (py_imports p)).
  { unfold py_imports. rewrite !in_app_iff. destruct (p_enum p), (p_utf8 p); cbn [In]; intuition discriminate. }
  assert (NS : In (n, OLib n) (all_binds p) -> n <> "all_structs").
  { intros X ->. unfold all_binds, header_binds in X. rewrite !in_app_iff, !in_map_iff in X.
    destruct X as [[(x & E & X)|[(x & E & X)|[E|[E|[]]]]]|(x & E & X)]; try discriminate. injection E as ->. auto. }
  destruct (K o Ho) as [[-> A]|[[-> A]|[[-> A]|(x & A & An & ->)]]];
  destruct (K o' Ho') as [[-> B]|[[-> B]|[[-> B]|(y & B & Bn & ->)]]]; try reflexivity;
  try (exfalso; exact (Hr _ B A)); try (exfalso; exact (Hr _ A B));
  try (exfalso; destruct (TT _ B) as [X _]; apply X; rewrite <- Bn, A; exact L);
  try (exfalso; destruct (TT _ A) as [X _]; apply X; rewrite <- An, B; exact L);
  try (exfalso; subst n; specialize (Hr _ B); tauto); try (exfalso; subst n; specialize (Hr _ A); tauto);
  try (exfalso; subst n; destruct (TT _ B); tauto); try (exfalso; subst n; destruct (TT _ A); tauto).
  - exfalso. apply (NS Ho B).
  - exfalso. apply (NS Ho' A).
  - assert (x = y). { eapply (NoDup_key _ _ Hnd); [exact A|exact B|]. cbn. congruence. } subst. reflexivity.
Qed.

(** Importing its ttypes.py succeeds, with every name found as meant. *)
Theorem C76_import : forall bs p, no_clash p -> In "object" bs ->
  exists g, run bs (ttypes p) [] = Ok (g, []).
Proof.
  intros bs p Hp Hobj. set (M := fun n => last_def n (all_binds p)).
  assert (HM : forall n o, In (n, o) (all_binds p) -> M n = Some o) by (apply no_clash_one; exact Hp).
  destruct Hp as (Hnd & Ht & Hr & Hrefs).
  assert (Hh : forall n, In n (py_imports p) -> In (n, OLib n) (header_binds p)).
  { intros n Hn. unfold header_binds. apply in_or_app. left. apply in_map_iff. eauto. }
  assert (Hs : In ("all_structs", OStructs) (header_binds p)).
  { unfold header_binds. rewrite !in_app_iff. right. right. right. left. reflexivity. }
  assert (Hin : forall n o, In (n, o) (header_binds p) -> In n (map fst (header_binds p)) /\ M n = Some o).
  { intros n o Hi. split; [apply in_map_iff; exists (n, o); auto|]. apply HM. unfold all_binds. apply in_or_app. auto. }
  assert (HO : M "object" = None).
  { apply last_def_none. intros o Ho. unfold all_binds, header_binds in Ho. rewrite !in_app_iff, !in_map_iff in Ho.
    destruct Ho as [[(x & E & X)|[(x & E & X)|[E|[E|[]]]]]|([t k] & E & X)]; try discriminate.
    - injection E as -> _. unfold py_imports in X. rewrite !in_app_iff in X. destruct (p_enum p), (p_utf8 p); cbn [In] in X; intuition discriminate.
    - injection E as -> _. apply (Hr _ X). left. reflexivity.
    - unfold type_bind in E. cbn [fst snd] in E. injection E as E _. apply (Ht _ _ X). rewrite E. left. reflexivity. }
  assert (IT : In "TType" (py_imports p) /\ In "TException" (py_imports p) /\ In "fix_spec" (py_imports p)).
  { unfold py_imports. cbn [app In]. repeat split; auto 10. }
  destruct IT as (I1 & I2 & I3).
  rewrite ttypes_parts, !app_assoc. apply run_clean_closing with (M := M).
  - intros n Hn. rewrite !binds_app, binds_header, !map_app, !in_app_iff. left. left.
    destruct Hn as [<-|[<-|[]]]; [exact (proj1 (Hin _ _ (Hh _ I3)))|exact (proj1 (Hin _ _ Hs))].
  - exact (proj2 (Hin _ _ (Hh _ I3))).
  - exact (proj2 (Hin _ _ Hs)).
  - rewrite <- !app_assoc. apply clean_app.
    { apply clean_binds.
      - unfold header. rewrite !forallb_app. rewrite !andb_true_iff. repeat split; try reflexivity; apply forallb_forall; intros x Hx;
          apply in_map_iff in Hx; destruct Hx as (y & <- & _); reflexivity.
      - intros n o Hi. rewrite binds_header in Hi. exact (proj2 (Hin _ _ Hi)). }
    rewrite binds_header, app_nil_r.
    assert (CC : clean bs M (map fst (header_binds p)) (classes p)).
    { unfold classes. apply clean_app.
      - apply clean_flat. intros e He. unfold enum_class. cbn [clean]. split; [|split; [|exact I]].
        + destruct (p_enum p) eqn:Ee; [left|right; auto]. apply Hin. apply Hh. unfold py_imports. rewrite Ee. rewrite !in_app_iff.
          right. left. left. reflexivity.
        + apply HM. unfold all_binds. apply in_or_app. right. apply in_map_iff. exists (e, KEnum). split; [reflexivity|].
          unfold type_list. apply in_or_app. left. apply in_map_iff. eauto.
      - apply clean_flat. intros d Hd. unfold struct_class. cbn [clean]. split; [|split; [|exact I]].
        + destruct (d_exc d); [left|right; auto]. destruct (Hin _ _ (Hh _ I2)) as [A B]. split; [apply in_or_app; auto|exact B].
        + apply HM. unfold all_binds. apply in_or_app. right. apply in_map_iff. exists (d_name d, d_kind d). split; [reflexivity|].
          unfold type_list. apply in_or_app. right. apply in_map_iff. eauto. }
    apply clean_app; [exact CC|]. rewrite binds_classes.
    assert (TY : forall t k, In (t, k) (type_list p) -> In (esc t) (map fst (map type_bind (type_list p))) /\ M (esc t) = Some (OType t k)).
    { intros t k Hi. split.
      - rewrite map_map. apply in_map_iff. exists (t, k). auto.
      - apply HM. unfold all_binds. apply in_or_app. right. apply in_map_iff. exists (t, k). auto. }
    unfold specs. apply clean_flat. intros d Hd. unfold thrift_spec. cbn [app clean]. split; [|split].
    + left. destruct (Hin _ _ Hs). split; [apply in_or_app; auto|assumption].
    + left. destruct (TY (d_name d) (d_kind d)) as [A B].
      * unfold type_list. apply in_or_app. right. apply in_map_iff. eauto.
      * split; [apply in_or_app; auto|exact B].
    + apply clean_app.
      * destruct (d_fields d); [|exact I]. cbn [clean]. split; [|exact I]. left. destruct (Hin _ _ (Hh _ I1)).
        split; [apply in_or_app; auto|assumption].
      * assert (X : forall r, In r (d_refs d) -> ref_declared p r) by (intros r; apply Hrefs; exact Hd).
        eapply clean_mono with (seen := map fst (map type_bind (type_list p)) ++ map fst (header_binds p)); [intros x Hx; apply in_or_app; auto|].
        induction (d_refs d) as [|r rs IH]; [exact I|].
        assert (Y : clean bs M (map fst (map type_bind (type_list p)) ++ map fst (header_binds p)) (map use_ref rs)).
        { apply IH. intros r' H'. apply X. right. exact H'. }
        specialize (X r (or_introl eq_refl)). destruct r as [t k|q]; cbn [map use_ref clean ref_declared] in *; split; try exact Y; left.
        -- destruct (TY t k X). split; [apply in_or_app; auto|assumption].
        -- assert (Z : In (q, OPkg q) (header_binds p)).
           { unfold header_binds. rewrite !in_app_iff. right. left. apply in_map_iff. eauto. }
           destruct (Hin _ _ Z). split; [apply in_or_app; auto|assumption].
Qed.

(** A service of such a program: its types and packages can be imported with a
    star, and neither is written like a name that the service's module binds. *)
Definition no_clash_service (p : prog) (s : serv) : Prop :=
  no_clash p
  /\ (forall t k, In (t, k) (type_list p) -> public (esc t) = true /\ ~ In (esc t) ("logging" :: own_names s))
  /\ (forall r, In r (p_roots p) -> public r = true)
  /\ (forall r, In r (p_roots p) \/ m_extends s = Some r -> ~ In r ("logging" :: own_names s))
  /\ (forall r, m_extends s = Some r -> ~ In r (reserved p) /\ forall t k, In (t, k) (type_list p) -> esc t <> r)
  /\ (forall f r, In f (m_fns s) -> In r (s_param_refs f ++ s_result_refs f) -> ref_declared p r).

Definition ends (q n : string) : bool :=
  if list_eq_dec Ascii.ascii_dec
       (firstn (length (list_ascii_of_string q)) (rev (list_ascii_of_string n))) (rev (list_ascii_of_string q))
  then true else false.
Lemma ends_app a q : ends q (a ++ q)%string = true.
Proof.
  unfold ends. rewrite slist_app, rev_app_distr, firstn_app, rev_length, Nat.sub_diag, firstn_O, app_nil_r.
  rewrite firstn_all2 by (rewrite rev_length; apply Nat.le_refl). destruct (list_eq_dec _ _ _); congruence.
Qed.
Definition helper_names (s : serv) : list string :=
  flat_map (fun f => (s_name f ++ "_args")%string :: if s_oneway f then [] else [(s_name f ++ "_result")%string]) (m_fns s).
Lemma helper_ends s n : In n (helper_names s) -> ends "_args" n || ends "_result" n = true.
Proof.
  unfold helper_names. intros H. apply in_flat_map in H. destruct H as (f & _ & [<-|H]); [rewrite ends_app; reflexivity|].
  destruct (s_oneway f); [destruct H|]. destruct H as [<-|[]]. rewrite ends_app. apply orb_true_r.
Qed.
Lemma helper_decl s d : In d (flat_map helpers (m_fns s)) ->
  esc (d_name d) = d_name d /\ In (d_name d) (helper_names s)
  /\ exists f, In f (m_fns s) /\ forall r, In r (d_refs d) -> In r (s_param_refs f ++ s_result_refs f).
Proof.
  intros H. apply in_flat_map in H. destruct H as (f & Hf & H). unfold helpers in H. destruct H as [<-|H].
  - cbn [d_name d_refs]. split; [apply esc_args|]. split; [apply in_flat_map; exists f; split; [exact Hf|left; reflexivity]|].
    exists f. split; [exact Hf|]. intros r Hr. apply in_or_app. auto.
  - destruct (s_oneway f) eqn:E; [destruct H|]. destruct H as [<-|[]]. cbn [d_name d_refs]. split; [apply esc_result|].
    split; [apply in_flat_map; exists f; split; [exact Hf|rewrite E; right; left; reflexivity]|].
    exists f. split; [exact Hf|]. intros r Hr. apply in_or_app. auto.
Qed.

Definition libs (p : prog) (s : serv) : list string := py_imports p ++ "TTransport" :: "logging" :: late_imports s.
Definition packages (p : prog) (s : serv) : list string :=
  p_roots p ++ match m_extends s with Some r => [r] | None => [] end.
(** What each name is meant to be. *)
Definition meant (p : prog) (s : serv) (n : string) : option obj :=
  match last_def n (map type_bind (type_list p)) with
  | Some o => Some o
  | None =>
      if mem n (packages p s) then Some (OPkg n)
      else if mem n (helper_names s) then Some (OHelper n)
      else if mem n ["Iface"; "Client"; "Processor"] then Some (OOwn n)
      else if String.eqb n "all_structs" then Some OStructs
      else if mem n (libs p s) then Some (OLib n)
      else None
  end.

Section Meant.
Variable p : prog.
Variable s : serv.
Hypothesis H : no_clash_service p s.

Lemma own_split n : In n (own_names s) <->
  In n (late_imports s) \/ In n ["all_structs"; "Iface"; "Client"; "Processor"] \/ In n (helper_names s).
Proof. unfold own_names, helper_names. rewrite !in_app_iff. reflexivity. Qed.
Lemma meant_type t k : In (t, k) (type_list p) -> meant p s (esc t) = Some (OType t k).
Proof.
  destruct H as ((Hnd & _) & _). intros Ht. unfold meant.
  rewrite (last_def_found (esc t) _ (OType t k)); [reflexivity|apply in_map_iff; exists (t, k); auto|].
  intros o Ho. apply in_map_iff in Ho. destruct Ho as (x & E & Hx). unfold type_bind in E. injection E as E <-.
  assert (x = (t, k)) by (apply (NoDup_key _ _ Hnd); auto). subst x. reflexivity.
Qed.
Lemma no_type n : In n (reserved p) \/ In n (packages p s) \/ In n ("logging" :: own_names s) ->
  last_def n (map type_bind (type_list p)) = None.
Proof.
  destruct H as ((_ & Ht & _) & Ho & _ & _ & Hx & _). intros Hn. apply types_none. intros t k Hi E.
  specialize (Ht t k Hi). specialize (Ho t k Hi). rewrite in_app_iff, E in Ht. rewrite E in Ho.
  destruct Hn as [Hn|[Hn|Hn]]; [tauto| |tauto]. unfold packages in Hn. apply in_app_or in Hn. destruct Hn as [Hn|Hn]; [tauto|].
  destruct (m_extends s) as [r|] eqn:Em; [|destruct Hn]. destruct Hn as [<-|[]]. destruct (Hx r eq_refl) as [_ X]. exact (X t k Hi E).
Qed.
Lemma meant_package n : In n (packages p s) -> meant p s n = Some (OPkg n).
Proof. intros Hn. unfold meant. rewrite no_type by auto. apply mem_In in Hn. rewrite Hn. reflexivity. Qed.
Lemma no_package n : In n (reserved p) \/ In n ("logging" :: own_names s) -> mem n (packages p s) = false.
Proof.
  destruct H as ((_ & _ & Hr & _) & _ & _ & Ho & Hx & _). intros Hn. apply mem_not. intros Hp. unfold packages in Hp.
  apply in_app_or in Hp. destruct Hp as [Hp|Hp].
  - destruct Hn as [Hn|Hn]; [exact (Hr n Hp Hn)|exact (Ho n (or_introl Hp) Hn)].
  - destruct (m_extends s) as [r|] eqn:Em; [|destruct Hp]. destruct Hp as [<-|[]].
    destruct Hn as [Hn|Hn]; [exact (proj1 (Hx r eq_refl) Hn)|exact (Ho r (or_intror eq_refl) Hn)].
Qed.
Lemma meant_helper n : In n (helper_names s) -> meant p s n = Some (OHelper n).
Proof.
  intros Hn. assert (Ho : In n ("logging" :: own_names s)) by (right; apply own_split; auto).
  unfold meant. rewrite no_type, no_package by auto. apply mem_In in Hn. rewrite Hn. reflexivity.
Qed.
Lemma no_helper n : ends "_args" n || ends "_result" n = false -> mem n (helper_names s) = false.
Proof. intros E. apply mem_not. intros Hn. apply helper_ends in Hn. congruence. Qed.
Lemma meant_own n : In n ["Iface"; "Client"; "Processor"] -> meant p s n = Some (OOwn n).
Proof.
  intros Hn. assert (Ho : In n ("logging" :: own_names s)) by (right; apply own_split; right; left; right; exact Hn).
  unfold meant. rewrite no_type, no_package by auto. rewrite no_helper by (destruct Hn as [<-|[<-|[<-|[]]]]; reflexivity).
  apply mem_In in Hn. rewrite Hn. reflexivity.
Qed.
Lemma meant_structs : meant p s "all_structs" = Some OStructs.
Proof.
  assert (Ho : In "all_structs" ("logging" :: own_names s)) by (right; apply own_split; right; left; left; reflexivity).
  unfold meant. rewrite no_type, no_package by auto. rewrite no_helper by reflexivity. reflexivity.
Qed.
Lemma libs_plain n : In n (libs p s) ->
  ends "_args" n || ends "_result" n = false /\ mem n ["Iface"; "Client"; "Processor"] = false /\ String.eqb n "all_structs" = false.
Proof.
  intros Hn.
  assert (A : In n ["TType"; "TMessageType"; "TFrozenDict"; "TException"; "TApplicationException"; "TProtocolException";
    "fix_spec"; "UUID"; "IntEnum"; "sys"; "TTransport"; "logging"; "TProcessor"; "Interface"; "implementer"; "defer";
    "TTwisted"; "gen"; "concurrent"]).
  { unfold libs, py_imports, late_imports in Hn. rewrite !in_app_iff in Hn. cbn [In] in Hn |- *. rewrite !in_app_iff in Hn. 
    destruct (p_enum p), (p_utf8 p), (m_zope s), (m_flavour s); cbn [In] in Hn; tauto. }
  clear Hn. cbn [In] in A.
  repeat (destruct A as [<-|A]; [vm_compute; auto|]). destruct A.
Qed.
Lemma meant_lib n : In n (libs p s) -> meant p s n = Some (OLib n).
Proof.
  intros Hn. destruct (libs_plain n Hn) as (E1 & E2 & E3).
  assert (Hr : In n (reserved p) \/ In n ("logging" :: own_names s)).
  { unfold libs in Hn. apply in_app_or in Hn. destruct Hn as [Hn|[<-|[<-|Hn]]].
    - left. right. right. right. exact Hn.
    - left. right. right. left. reflexivity.
    - right. left. reflexivity.
    - right. right. apply own_split. auto. }
  unfold meant. rewrite no_type by tauto. rewrite no_package by exact Hr. rewrite (no_helper n E1), E2, E3.
  apply mem_In in Hn. rewrite Hn. reflexivity.
Qed.
Lemma meant_object : meant p s "object" = None.
Proof.
  assert (Hr : In "object" (reserved p)) by (left; reflexivity).
  unfold meant. rewrite no_type, no_package by auto. rewrite no_helper by reflexivity.
  cbn [mem existsb String.eqb Ascii.eqb Bool.eqb]. 
  destruct (mem "object" (libs p s)) eqn:E; [|reflexivity]. exfalso. apply mem_In in E.
  unfold libs, py_imports, late_imports in E. rewrite !in_app_iff in E. cbn [In] in E. rewrite !in_app_iff in E.
  destruct (p_enum p), (p_utf8 p), (m_zope s), (m_flavour s); cbn [In] in E; intuition discriminate.
Qed.
End Meant.

Lemma clean_use bs M seen n o : In n seen -> M n = Some o -> clean bs M seen [Use n o].
Proof. intros A B. cbn [clean]. auto. Qed.
Lemma clean_attr bs M seen n o : In n seen -> M n = Some o -> clean bs M seen [Attr n o].
Proof. intros A B. cbn [clean]. auto. Qed.

(** Importing the service's module succeeds too, with every name found as
    meant. *)
Theorem C76_service_import : forall bs p s, no_clash_service p s -> In "object" bs ->
  exists g g', run bs (ttypes p) [] = Ok (g, []) /\ run bs (service_module p s g) [] = Ok (g', []).
Proof.
  intros bs p s H Hobj. destruct (C76_import bs p (proj1 H) Hobj) as (g & Hg). exists g.
  pose proof (ttypes_globals _ _ _ _ Hg) as Eg.
  assert (HS : forall n o, In (n, o) (binds (star g)) -> meant p s n = Some o).
  { intros n o Hn. rewrite binds_star in Hn. apply in_rev in Hn. apply filter_In in Hn. destruct Hn as [Hn _].
    rewrite Eg in Hn. unfold types_globals in Hn. apply filter_In in Hn. destruct Hn as [Hn _].
    apply in_app_or in Hn. rewrite <- !in_rev in Hn. destruct Hn as [Hn|Hn].
    - apply in_map_iff in Hn. destruct Hn as ([t k] & E & Ht). unfold type_bind in E. cbn [fst snd] in E. injection E as <- <-.
      apply meant_type; assumption.
    - unfold header_binds in Hn. rewrite !in_app_iff, !in_map_iff in Hn.
      destruct Hn as [(x & E & X)|[(x & E & X)|[E|[E|[]]]]]; injection E as <- <-.
      + apply meant_lib; [assumption|]. unfold libs. apply in_or_app. auto.
      + apply meant_package; [assumption|]. unfold packages. apply in_or_app. auto.
      + apply meant_lib; [assumption|]. unfold libs. apply in_or_app. right. left. reflexivity.
      + apply meant_structs; assumption. }
  assert (HE : forall n o, In (n, o) (early_binds p s) -> meant p s n = Some o).
  { intros n o Hn. unfold early_binds in Hn. rewrite !in_app_iff, in_map_iff in Hn.
    destruct Hn as [(x & E & X)|[X|[E|[]]]].
    - injection E as <- <-. apply meant_lib; [assumption|]. unfold libs. apply in_or_app. auto.
    - destruct (m_extends s) as [r|] eqn:Em; [|destruct X]. destruct X as [E|[]]. injection E as <- <-. apply meant_package; [assumption|].
      unfold packages. rewrite Em. apply in_or_app. right. left. reflexivity.
    - injection E as <- <-. apply meant_lib; [assumption|]. unfold libs. apply in_or_app. right. right. left. reflexivity. }
  pose proof (proj1 H) as (_ & _ & Hroots & _).
  assert (FS : In "fix_spec" (py_imports p) /\ In "TType" (py_imports p)).
  { unfold py_imports. cbn [app In]. auto 12. }
  destruct FS as (FS & FT).
  set (seen0 := map fst (binds (early_imports p s)) ++ []).
  set (seen1 := map fst (binds (star g)) ++ seen0).
  assert (S0 : forall n, In n (py_imports p) \/ m_extends s = Some n -> In n seen0).
  { intros n Hn. unfold seen0. rewrite app_nil_r, binds_early. unfold early_binds. rewrite !map_app, !in_app_iff, map_map. cbn [fst].
    rewrite map_id. destruct Hn as [Hn|Hn]; [auto|]. right. left. rewrite Hn. left. reflexivity. }
  assert (ST : forall n o, In (n, o) (map type_bind (type_list p) ++ header_binds p) -> n <> "all_structs" -> public n = true -> In n seen1).
  { intros n o Hn Ha Hp. unfold seen1. apply in_or_app. left. rewrite binds_star. apply in_map_iff. exists (n, o). split; [reflexivity|].
    rewrite <- in_rev. apply filter_In. split; [|exact Hp]. rewrite Eg. unfold types_globals. apply filter_In. split.
    - rewrite <- rev_app_distr. rewrite <- in_rev. apply in_app_or in Hn. apply in_or_app. tauto.
    - cbn [fst]. destruct (String.eqb_spec "all_structs" n); [congruence|reflexivity]. }
  assert (S1 : forall n, In n seen0 -> In n seen1) by (intros n Hn; unfold seen1; apply in_or_app; auto).
  assert (SP : forall n, In n (packages p s) -> In n seen1).
  { intros n Hn. unfold packages in Hn. apply in_app_or in Hn. destruct Hn as [Hn|Hn].
    - destruct H as (_ & _ & Hpub & _). eapply ST with (o := OPkg n); [|intros ->|apply Hpub; exact Hn].
      + apply in_or_app. right. unfold header_binds. rewrite !in_app_iff, !in_map_iff. right. left. eauto.
      + apply (Hroots _ Hn). cbn [reserved In]. auto.
    - apply S1. apply S0. right. destruct (m_extends s); [|destruct Hn]. destruct Hn as [<-|[]]. reflexivity. }
  assert (SY : forall t k, In (t, k) (type_list p) -> In (esc t) seen1).
  { intros t k Ht. pose proof (proj1 H) as (_ & Hres & _). destruct H as (_ & Hpub & _). eapply ST with (o := OType t k).
    - apply in_or_app. left. apply in_map_iff. exists (t, k). auto.
    - intros E. apply (Hres t k Ht). rewrite E. apply in_or_app. left. cbn [reserved In]. auto.
    - apply (Hpub t k Ht). }
  assert (OB : forall seen, clean bs (meant p s) seen [Use "object" (OLib "object")]).
  { intros seen. cbn [clean]. split; [|exact I]. right. split; [exact Hobj|]. split; [apply meant_object; assumption|reflexivity]. }
  assert (BP : forall seen, incl seen1 seen -> clean bs (meant p s) seen (base_package s)).
  { intros seen Hi. unfold base_package. destruct (m_extends s) as [r|] eqn:Em; [|exact I]. apply clean_attr.
    - apply Hi. apply SP. unfold packages. rewrite Em. apply in_or_app. right. left. reflexivity.
    - apply meant_package; [assumption|]. unfold packages. rewrite Em. apply in_or_app. right. left. reflexivity. }
  assert (LL : forall n, In n (late_imports s) -> meant p s n = Some (OLib n)).
  { intros n Hn. apply meant_lib; [assumption|]. unfold libs. apply in_or_app. right. right. right. exact Hn. }
  set (seen2 := map fst (binds (map lib (late_imports s) ++ [Bind "all_structs" OStructs])) ++ seen1).
  assert (S2 : incl seen1 seen2) by (intros n Hn; unfold seen2; apply in_or_app; auto).
  assert (SL : forall n, In n (late_imports s) -> In n seen2).
  { intros n Hn. unfold seen2. rewrite binds_app, binds_lib, map_app, map_map, !in_app_iff. cbn [fst]. rewrite map_id. auto. }
  assert (SA : In "all_structs" seen2).
  { unfold seen2. rewrite binds_app, map_app, !in_app_iff. left. right. left. reflexivity. }
  assert (IM : forall seen, incl seen2 seen -> In "Iface" seen -> clean bs (meant p s) seen (implementer s)).
  { intros seen Hi Hf. unfold implementer. destruct (m_zope s) eqn:Ez; [|exact I].
    assert (X : In "implementer" (late_imports s)) by (unfold late_imports; rewrite Ez; rewrite !in_app_iff; right; left; right; left; reflexivity).
    cbn [clean]. split; [left; split; [apply Hi, SL, X|apply LL, X]|]. split; [left; split; [exact Hf|]|exact I].
    apply meant_own; [assumption|left; reflexivity]. }
  assert (MI : meant p s "Iface" = Some (OOwn "Iface")) by (apply meant_own; [assumption|left; reflexivity]).
  destruct (run_clean_closing bs (meant p s) (early_imports p s ++ star g ++ late s)) as (g' & Hg').
  - intros n Hn. rewrite !binds_app, !map_app, !in_app_iff. destruct Hn as [<-|[<-|[]]].
    + left. rewrite binds_early. unfold early_binds. rewrite map_app, in_app_iff, map_map. cbn [fst]. rewrite map_id. auto.
    + right. right. rewrite binds_late, late_names. apply own_split. right. left. left. reflexivity.
  - apply meant_lib; [assumption|]. unfold libs. apply in_or_app. left. exact FS.
  - apply meant_structs; assumption.
  - apply clean_app.
    { apply clean_binds.
      - unfold early_imports. rewrite !forallb_app, !andb_true_iff. repeat split; [apply forallb_forall; intros x Hx; apply in_map_iff in Hx; destruct Hx as (y & <- & _); reflexivity|].
        destruct (m_extends s); reflexivity.
      - rewrite binds_early. exact HE. }
    fold seen0. apply clean_app.
    { apply clean_binds; [|exact HS]. unfold star. apply forallb_forall. intros x Hx. apply in_map_iff in Hx. destruct Hx as (y & <- & _). reflexivity. }
    fold seen1. unfold late. rewrite app_assoc. apply clean_app.
    { apply clean_binds.
      - rewrite forallb_app. apply andb_true_iff. split; [|reflexivity]. apply forallb_forall. intros x Hx. apply in_map_iff in Hx. destruct Hx as (y & <- & _). reflexivity.
      - intros n o Hn. rewrite binds_app, binds_lib, in_app_iff, in_map_iff in Hn. destruct Hn as [(x & E & X)|[E|[]]]; injection E as <- <-.
        + apply LL. exact X.
        + apply meant_structs; assumption. }
    fold seen2. apply clean_app.
    { unfold iface_class. apply clean_app; [|cbn [clean]; auto]. destruct (m_extends s) as [r|] eqn:Em.
      - pose proof (BP seen2 S2) as X. unfold base_package in X. rewrite Em in X. exact X.
      - destruct (m_zope s) eqn:Ez; [|apply OB].
        assert (X : In "Interface" (late_imports s)) by (unfold late_imports; rewrite Ez; rewrite !in_app_iff; right; left; left; reflexivity).
        apply clean_use; [apply SL, X|apply LL, X]. }
    set (seen3 := map fst (binds (iface_class s)) ++ seen2).
    assert (S3 : incl seen2 seen3) by (intros n Hn; unfold seen3; apply in_or_app; auto).
    assert (I3 : In "Iface" seen3).
    { unfold seen3, iface_class. rewrite binds_app, map_app, !in_app_iff. left. right. left. reflexivity. }
    apply clean_app.
    { unfold client_class. apply clean_app; [apply IM; assumption|]. apply clean_app.
      - apply BP. intros n Hn. apply in_or_app. right. apply S3, S2, Hn.
      - apply clean_app.
        + destruct (m_zope s).
          * destruct (m_extends s); [exact I|apply OB].
          * apply clean_use; [|exact MI]. apply in_or_app. right. apply in_or_app. right. exact I3.
        + cbn [clean]. split; [|exact I]. apply meant_own; [assumption|right; left; reflexivity]. }
    set (seen4 := map fst (binds (client_class s)) ++ seen3).
    assert (S4 : incl seen3 seen4) by (intros n Hn; unfold seen4; apply in_or_app; auto).
    apply clean_app.
    { unfold processor_class. apply clean_app; [apply IM; [intros n Hn; apply S4, S3, Hn|apply S4, I3]|]. apply clean_app.
      - apply BP. intros n Hn. apply in_or_app. right. apply S4, S3, S2, Hn.
      - apply clean_app.
        + destruct (m_zope s); [exact I|]. apply clean_use; [|exact MI]. apply in_or_app. right. apply in_or_app. right. apply S4, I3.
        + assert (X : In "TProcessor" (late_imports s)) by (left; reflexivity).
          cbn [clean]. split; [left; split; [|apply LL, X]|split; [|exact I]].
          * apply in_or_app. right. apply in_or_app. right. apply in_or_app. right. apply S4, S3, SL, X.
          * apply meant_own; [assumption|right; right; left; reflexivity]. }
    set (seen5 := map fst (binds (processor_class s)) ++ seen4).
    assert (S5 : incl seen2 seen5) by (intros n Hn; unfold seen5; apply in_or_app; right; apply S4, S3, Hn).
    apply clean_flat. intros d Hd. destruct (helper_decl s d Hd) as (Ed & Hin & f & Hf & Hrf). rewrite <- Ed in Hin.
    unfold helper_class, thrift_spec. cbn [app clean]. split; [exact (proj1 (OB seen5))|].
    assert (MH : meant p s (esc (d_name d)) = Some (OHelper (d_name d))).
    { rewrite Ed in Hin |- *. apply meant_helper; assumption. }
    split; [exact MH|]. split; [left; split; [right; apply S5, SA|apply meant_structs; assumption]|].
    split; [left; split; [left; reflexivity|exact MH]|]. apply clean_app.
    + destruct (d_fields d); [|exact I]. apply clean_attr; [right; apply S5, S2, S1, S0; left; exact FT|].
      apply meant_lib; [assumption|]. unfold libs. apply in_or_app. left. exact FT.
    + destruct H as (Hp & Hrest). assert (X : forall r, In r (d_refs d) -> ref_declared p r).
      { intros r Hr. destruct Hrest as (_ & _ & _ & _ & Y). apply (Y f r Hf). apply Hrf. exact Hr. }
      eapply clean_mono with (seen := seen1); [intros n Hn; apply in_or_app; right; right; apply S5, S2, Hn|].
      assert (H : no_clash_service p s) by exact (conj Hp Hrest). clear Hd Ed Hin Hrf MH Hrest.
      induction (d_refs d) as [|r rs IH]; [exact I|].
      assert (Y : clean bs (meant p s) seen1 (map use_ref rs)) by (apply IH; intros r' Hr'; apply X; right; exact Hr').
      specialize (X r (or_introl eq_refl)). destruct r as [t k|q]; cbn [map use_ref clean ref_declared] in *; (split; [left|exact Y]).
      * split; [exact (SY t k X)|apply meant_type; assumption].
      * assert (Z : In q (packages p s)) by (unfold packages; apply in_or_app; auto).
        split; [apply SP; exact Z|apply meant_package; assumption].
  - exists g'. split; [exact Hg|]. rewrite service_parts. exact Hg'.
Qed.

(** In the service's module a name imported before the types is captured by a
    type written so (defect); a name imported after them never is. *)
Theorem C76_service_library : forall bs p s g w g' w', run bs (ttypes p) [] = Ok (g, w) ->
  run bs (service_module p s g) [] = Ok (g', w') ->
  (forall n, In n ("logging" :: imported p) -> ~ In n (p_roots p) -> m_extends s <> Some n ->
     lookup bs g' n = Some (OLib n) <-> forall t k, In (t, k) (type_list p) -> esc t <> n)
  /\ forall n, In n (imported_late s) -> lookup bs g' n = Some (OLib n).
Proof.
  change imported with py_imports. change imported_late with late_imports.
  intros bs p s g w g' w' H H'. split.
  - intros n Hn Hr Hx.
    assert (Hlib : In n (libs p s)).
    { unfold libs. apply in_or_app. destruct Hn as [<-|Hn]; [right; right; left; reflexivity|auto]. }
    destruct (libs_plain p s n Hlib) as (E1 & E2 & E3).
    assert (Hp : public n = true /\ last_def n (late_binds s) = None /\ n <> "TTransport").
    { assert (A : In n ["logging"; "TType"; "TMessageType"; "TFrozenDict"; "TException"; "TApplicationException"; "TProtocolException";
        "fix_spec"; "UUID"; "IntEnum"; "sys"]).
      { unfold py_imports in Hn. cbn [In app] in Hn |- *. rewrite in_app_iff in Hn.
        destruct (p_enum p), (p_utf8 p); cbn [In] in Hn; tauto. }
      split; [|split].
      - cbn [In] in A. repeat (destruct A as [<-|A]; [reflexivity|]). destruct A.
      - apply late_in. intros Ho. apply own_split in Ho. destruct Ho as [Ho|[Ho|Ho]].
        + assert (B : In n ["TProcessor"; "TTransport"; "Interface"; "implementer"; "defer"; "TTwisted"; "gen"; "concurrent"]).
          { unfold late_imports in Ho. rewrite !in_app_iff in Ho. destruct (m_zope s), (m_flavour s); cbn [In] in Ho |- *; tauto. }
          cbn [In] in A. repeat (destruct A as [<-|A]; [cbn [In] in B; intuition discriminate|]). destruct A.
        + destruct Ho as [<-|Ho]; [discriminate|]. apply mem_In in Ho. congruence.
        + apply helper_ends in Ho. congruence.
      - intros ->. cbn [In] in A. intuition discriminate. }
    destruct Hp as (Hp & Hl & Htr).
    pose proof (ttypes_globals _ _ _ _ H) as Eg. unfold lookup. rewrite (service_assoc _ _ _ _ _ _ H' n), Hl, Hp, Eg, assoc_types.
    destruct (String.eqb_spec "all_structs" n) as [<-|_]; [discriminate|]. rewrite <- types_none.
    destruct (last_def n (map type_bind (type_list p))) as [o|] eqn:E.
    + apply types_last in E. destruct E as (t & k & -> & _). split; discriminate.
    + split; [auto|]. intros _. destruct (last_def n (header_binds p)) as [o|] eqn:Eh.
      * apply last_def_in in Eh. unfold header_binds in Eh. rewrite !in_app_iff, !in_map_iff in Eh.
        destruct Eh as [(x & X & _)|[(x & X & Y)|[X|[X|[]]]]]; try congruence. injection X as <- <-. discriminate.
      * rewrite (last_def_found n (early_binds p s) (OLib n)); [reflexivity|..].
        -- unfold early_binds. rewrite !in_app_iff, in_map_iff. destruct Hn as [<-|Hn]; [right; right; left; reflexivity|left; eauto].
        -- intros o Ho. unfold early_binds in Ho. rewrite !in_app_iff, in_map_iff in Ho.
           destruct Ho as [(x & X & _)|[Ho|[X|[]]]]; try congruence. destruct (m_extends s); [|destruct Ho].
           destruct Ho as [X|[]]. congruence.
  - intros n Hn. assert (Hlib : In n (libs p s)) by (unfold libs; apply in_or_app; right; right; right; exact Hn).
    destruct (libs_plain p s n Hlib) as (E1 & E2 & E3).
    unfold lookup. rewrite (service_assoc _ _ _ _ _ _ H' n). rewrite String.eqb_sym, E3.
    rewrite (last_def_found n (late_binds s) (OLib n)); [reflexivity|..].
    + unfold late_binds. rewrite in_app_iff, in_map_iff. left. eauto.
    + intros o Ho. unfold late_binds, helper_binds in Ho. rewrite !in_app_iff, !in_map_iff in Ho.
      apply mem_not in E2. apply String.eqb_neq in E3. cbn [In] in E2.
      destruct Ho as [(x & X & _)|[[X|[X|[X|[X|[]]]]]|(d & X & Hd)]]; try congruence; try (injection X as X _; exfalso; tauto).
      injection X as X1 X2. destruct (helper_decl s d Hd) as (Ed & Hh & _). rewrite X1 in Ed. rewrite <- Ed in Hh.
      apply helper_ends in Hh. congruence.
Qed.

(** * Imports that fail *)

Lemma run_no_diverge bs : forall ss g, run bs ss g <> Diverge.
Proof.
  induction ss as [|x ss IH]; intros g; cbn [run]; [discriminate|].
  destruct (step bs x g) as [[g1 w1]| |] eqn:E; [|discriminate|].
  - specialize (IH g1). destruct (run bs ss g1) as [[? ?]| |]; congruence.
  - destruct x; cbn [step] in E; [discriminate|..].
    + destruct (lookup bs g n); discriminate.
    + destruct (lookup bs g n) as [q|]; [|discriminate]. destruct (obj_eqb o q); [discriminate|]. destruct q as [| |? []| | |]; discriminate.
    + destruct (assoc n g); discriminate.
Qed.
Lemma run_attr_struct bs n o t k : k <> KEnum -> o <> OType t k -> forall ss g g' w,
  binds ss = [] -> forallb no_del ss = true -> In (Attr n o) ss -> lookup bs g n = Some (OType t k) ->
  run bs ss g = Ok (g', w) -> False.
Proof.
  intros Hk Ho. induction ss as [|x ss IH]; intros g g' w Hb Hd Hi Hl Hr; [destruct Hi|].
  cbn [run] in Hr. cbn [forallb] in Hd. apply andb_prop in Hd. destruct Hd as [Hx Hd].
  change (binds (x :: ss)) with (bind_of x ++ binds ss) in Hb. apply app_eq_nil in Hb. destruct Hb as [Hb1 Hb2].
  destruct Hi as [->|Hi].
  - cbn [step] in Hr. rewrite Hl in Hr. destruct (obj_eqb o (OType t k)) eqn:E; [apply obj_eqb_eq in E; congruence|].
    destruct k; [congruence|discriminate|discriminate].
  - destruct (step bs x g) as [[g1 w1]| |] eqn:E; try discriminate. destruct (run bs ss g1) as [[g2 w2]| |] eqn:E2; try discriminate.
    assert (g1 = g).
    { assert (R : run bs [x] g = Ok (g1, w1)) by (cbn [run]; rewrite E, app_nil_r; reflexivity).
      apply run_binds in R; [|cbn [forallb]; rewrite Hx; reflexivity]. cbn [binds flat_map] in R. rewrite Hb1 in R. exact R. }
    subst g1. exact (IH g g2 w2 Hb2 Hd Hi Hl E2).
Qed.

(** (defect) ttypes.py cannot be imported if a struct or exception is called
    [all_structs]; or [TType], and any has fields; or like the package of an
    included program, and any refers to that. *)
Theorem C76_import_fails : forall bs p n t k d, latest p n t k -> k <> KEnum -> In d (p_objs p) ->
  n = "all_structs" \/ (n = "TType" /\ d_fields d = true) \/ In (RIncl n) (d_refs d) ->
  exists e, run bs (ttypes p) [] = Raise e.
Proof.
  intros bs p n t k d Hl Hk Hd Hn. destruct (run bs (ttypes p) []) as [[g w]|e|] eqn:E; [|eauto|destruct (run_no_diverge _ _ _ E)].
  exfalso. rewrite ttypes_parts, !app_assoc, run_app in E.
  destruct (run bs ((header p ++ classes p) ++ specs p) []) as [[g1 w1]| |] eqn:E1; try discriminate. clear E. rewrite run_app in E1.
  destruct (run bs (header p ++ classes p) []) as [[g0 w0]| |] eqn:E0; try discriminate.
  destruct (run bs (specs p) g0) as [[g2 w2]| |] eqn:E2; try discriminate. clear E1.
  apply run_binds in E0; [|rewrite forallb_app, no_del_header, no_del_classes; reflexivity].
  assert (L : lookup bs g0 n = Some (OType t k)).
  { unfold lookup. rewrite E0, app_nil_r. change (assoc n (rev ?l)) with (last_def n l).
    rewrite binds_app, last_def_app, binds_classes.
    assert (X : last_def n (map type_bind (type_list p)) = Some (OType t k)) by (apply types_last; eauto). rewrite X. reflexivity. }
  assert (A : exists o, In (Attr n o) (specs p) /\ o <> OType t k).
  { destruct Hn as [->|[[-> Hf]|Hn]].
    - exists OStructs. split; [|discriminate]. unfold specs. apply in_flat_map. exists d. split; [exact Hd|left; reflexivity].
    - exists (OLib "TType"). split; [|discriminate]. unfold specs. apply in_flat_map. exists d. split; [exact Hd|].
      unfold thrift_spec. rewrite Hf. apply in_or_app. right. left. reflexivity.
    - exists (OPkg n). split; [|discriminate]. unfold specs. apply in_flat_map. exists d. split; [exact Hd|].
      unfold thrift_spec. rewrite !in_app_iff. right. right. apply in_map_iff. exists (RIncl n). auto. }
  destruct A as (o & Ha & Ho). exact (run_attr_struct bs n o t k Hk Ho _ _ _ _ (binds_specs p) (no_del_specs p) Ha L E2).
Qed.

Lemma run_unbound bs n o : forall ss g g' w, assoc n g = None -> ~ In n bs -> (forall q, ~ In (n, q) (binds ss)) ->
  In (Use n o) ss \/ In (Attr n o) ss -> run bs ss g = Ok (g', w) -> False.
Proof.
  induction ss as [|x ss IH]; intros g g' w Hg Hb Hn Hi Hr; [destruct Hi as [[]|[]]|]. cbn [run] in Hr.
  assert (U : lookup bs g n = None) by (unfold lookup; apply mem_not in Hb; rewrite Hg, Hb; reflexivity).
  destruct (step bs x g) as [[g1 w1]| |] eqn:E; try discriminate. destruct (run bs ss g1) as [[g2 w2]| |] eqn:E2; try discriminate.
  assert (G : assoc n g1 = None).
  { destruct x; cbn [step] in E.
    - injection E as <- _. cbn [assoc]. destruct (String.eqb_spec n n0) as [<-|]; [|exact Hg]. destruct (Hn o0). left. reflexivity.
    - destruct (lookup bs g n0); [|discriminate]. injection E as <- _. exact Hg.
    - destruct (lookup bs g n0) as [q|]; [|discriminate]. destruct (obj_eqb o0 q); [injection E as <- _; exact Hg|].
      destruct q as [| |? []| | |]; try discriminate. injection E as <- _. exact Hg.
    - destruct (assoc n0 g); [|discriminate]. injection E as <- _. rewrite assoc_filter, Hg. destruct (String.eqb n0 n); reflexivity. }
  assert (Hn' : forall q, ~ In (n, q) (binds ss)).
  { intros q Hq. apply (Hn q). change (binds (x :: ss)) with (bind_of x ++ binds ss). apply in_or_app. auto. }
  destruct Hi as [[->|Hi]|[->|Hi]].
  - cbn [step] in E. rewrite U in E. discriminate.
  - exact (IH g1 g2 w2 G Hb Hn' (or_introl Hi) E2).
  - cbn [step] in E. rewrite U in E. discriminate.
  - exact (IH g1 g2 w2 G Hb Hn' (or_intror Hi) E2).
Qed.

(** (defect) The module of a service cannot be imported if a function takes,
    returns or throws a type (other than an enum) whose name begins with an
    underscore, or one of an included program whose package does. *)
Theorem C76_underscore_fails : forall bs p s g w f n r, run bs (ttypes p) [] = Ok (g, w) ->
  In f (m_fns s) -> In r (s_param_refs f) \/ (s_oneway f = false /\ In r (s_result_refs f)) ->
  match r with ROwn t _ => esc t = n | RIncl q => q = n end ->
  public n = false -> ~ In n bs -> m_extends s <> Some n -> ~ In n (own_names s) ->
  exists e, run bs (service_module p s g) [] = Raise e.
Proof.
  intros bs p s g w f n r H Hf Hr En Hp Hb Hx Ho.
  destruct (run bs (service_module p s g) []) as [[g' w']|e|] eqn:E; [|eauto|destruct (run_no_diverge _ _ _ E)].
  exfalso. rewrite service_parts in E.
  assert (U : exists o, In (Use n o) (late s) \/ In (Attr n o) (late s)).
  { assert (D : exists d, In d (flat_map helpers (m_fns s)) /\ In r (d_refs d)).
    { destruct Hr as [Hr|[Hw Hr]].
      - exists (mkdecl (s_name f ++ "_args")%string false (s_params f) (s_param_refs f)). split; [|exact Hr].
        apply in_flat_map. exists f. split; [exact Hf|left; reflexivity].
      - exists (mkdecl (s_name f ++ "_result")%string false (s_result f) (s_result_refs f)). split; [|exact Hr].
        apply in_flat_map. exists f. split; [exact Hf|]. unfold helpers. rewrite Hw. right. left. reflexivity. }
    destruct D as (d & Hd & Hrd).
    assert (X : In (use_ref r) (late s)).
    { unfold late. rewrite !in_app_iff. do 5 right. apply in_flat_map. exists d. split; [exact Hd|].
      unfold helper_class, thrift_spec. rewrite !in_app_iff. do 3 right. apply in_map. exact Hrd. }
    destruct r as [t k|q]; cbn [use_ref] in X; [exists (OType t k); left|exists (OPkg q); right]; rewrite <- En; exact X. }
  destruct U as (o & U).
  apply (run_unbound bs n o _ [] g' w' eq_refl Hb) in E; [exact E|..].
  - intros q Hq. rewrite !binds_app, !in_app_iff, binds_early, binds_star, binds_late in Hq.
    destruct Hq as [[Hq|[Hq|Hq]]|[]].
    + unfold early_binds in Hq. rewrite !in_app_iff, in_map_iff in Hq. destruct Hq as [(x & X & Hi)|[Hq|[X|[]]]].
      * injection X as -> _. unfold py_imports in Hi. rewrite !in_app_iff in Hi.
        destruct (p_enum p), (p_utf8 p); cbn [In] in Hi; intuition (subst; discriminate).
      * destruct (m_extends s); [|destruct Hq]. destruct Hq as [X|[]]. congruence.
      * injection X as <- _. discriminate.
    + rewrite <- in_rev in Hq. apply filter_In in Hq. destruct Hq as [_ Hq]. cbn [fst] in Hq. congruence.
    + apply Ho. rewrite <- late_names. apply in_map_iff. exists (n, q). auto.
  - rewrite !in_app_iff. tauto.
Qed.

(** * Cases *)

Definition ex_bs : list string := ["object"; "len"; "range"; "isinstance"; "set"].
(** A program with an enum, a struct of the struct of another, and an exception,
    an included package, and a service that extends another. *)
Definition ex_prog : prog :=
  mkprog true true ["shared"] ["Color"]
    [mkdecl "Point" false true []; mkdecl "from" false true [ROwn "Point" KStruct; RIncl "shared"]; mkdecl "Oops" true false []].
Definition ex_serv (fl : mflavour) (z : bool) : serv :=
  mkserv fl z (Some "base")
    [mksfn "draw" false true [ROwn "from" KStruct] true [ROwn "Oops" KExc; RIncl "shared"]; mksfn "ping" true false [] false []].
Example C76_import_ex : no_clash ex_prog.
Proof.
  split; [|split; [|split]].
  - vm_compute. repeat constructor; cbn [In]; intuition discriminate.
  - intros t k Ht. vm_compute in Ht. intuition (match goal with E : (_, _) = (_, _) |- _ => injection E as <- <- end; vm_compute in *; intuition discriminate).
  - intros r [<-|[]]. vm_compute. intuition discriminate.
  - intros d r Hd Hr. vm_compute in Hd. destruct Hd as [<-|[<-|[<-|[]]]]; cbn [d_refs In] in Hr.
    + destruct Hr.
    + destruct Hr as [<-|[<-|[]]]; vm_compute; auto.
    + destruct Hr.
Qed.
Example C76_service_import_ex : forall fl z, no_clash_service ex_prog (ex_serv fl z).
Proof.
  intros fl z. split; [exact C76_import_ex|]. split; [|split; [|split; [|split]]].
  - intros t k Ht. vm_compute in Ht. destruct fl, z;
      intuition (match goal with E : (_, _) = (_, _) |- _ => injection E as <- <- end; vm_compute in *; intuition discriminate).
  - intros r [<-|[]]. reflexivity.
  - intros r Hr. assert (r = "shared" \/ r = "base") as [->| ->].
    { destruct Hr as [[<-|[]]|Hr]; [auto|]. injection Hr as <-. auto. }
    + destruct fl, z; vm_compute; intuition discriminate.
    + destruct fl, z; vm_compute; intuition discriminate.
  - intros r Hr. injection Hr as <-. split; [vm_compute; intuition discriminate|].
    intros t k Ht. vm_compute in Ht. intuition (match goal with E : (_, _) = (_, _) |- _ => injection E as <- <- end; vm_compute in *; intuition discriminate).
  - intros f r [<-|[<-|[]]] Hr; cbn [s_param_refs s_result_refs app In] in Hr.
    + destruct Hr as [<-|[<-|[<-|[]]]]; vm_compute; auto.
    + destruct Hr.
Qed.
(** What its names find. *)
Definition after_types (p : prog) : globals := match run ex_bs (ttypes p) [] with Ok (g, _) => g | _ => [] end.
Definition after_service (p : prog) (s : serv) : globals :=
  match run ex_bs (service_module p s (after_types p)) [] with Ok (g, _) => g | _ => [] end.
Example C76_found_ex :
  map (lookup ex_bs (after_service ex_prog (ex_serv MSync false)))
      ["Point"; "from_"; "from"; "Color"; "shared"; "base"; "Client"; "draw_args"; "ping_result"; "TType"; "len"; "all_structs"]
  = [Some (OType "Point" KStruct); Some (OType "from" KStruct); None; Some (OType "Color" KEnum); Some (OPkg "shared");
     Some (OPkg "base"); Some (OOwn "Client"); Some (OHelper "draw_args"); None; Some (OLib "TType"); Some (OLib "len"); None].
Proof. vm_compute. reflexivity. Qed.
(** Types with unlucky names: in ttypes.py and in the service's module. *)
Example C76_captured_ex :
  let p := mkprog false true [] ["TType"] [mkdecl "Client" false true []; mkdecl "len" false true []; mkdecl "_hid" false true [];
             mkdecl "TTransport" false true []; mkdecl "pass" false true []; mkdecl "pass_" false true []] in
  let s := mkserv MSync false None [mksfn "f" false false [] false []] in
  map (lookup ex_bs (after_types p)) ["TType"; "Client"; "len"; "_hid"; "TTransport"; "pass_"]
  = [Some (OType "TType" KEnum); Some (OType "Client" KStruct); Some (OType "len" KStruct); Some (OType "_hid" KStruct);
     Some (OType "TTransport" KStruct); Some (OType "pass_" KStruct)]
  /\ map (lookup ex_bs (after_service p s)) ["TType"; "Client"; "len"; "_hid"; "TTransport"; "pass_"]
  = [Some (OType "TType" KEnum); Some (OOwn "Client"); Some (OType "len" KStruct); None;
     Some (OLib "TTransport"); Some (OType "pass_" KStruct)].
Proof. vm_compute. split; reflexivity. Qed.
(** Imports that fail. *)
Example C76_import_fails_ex :
  run ex_bs (ttypes (mkprog false true [] [] [mkdecl "TType" false true []])) [] = Raise EAttributeError
  /\ run ex_bs (ttypes (mkprog false true [] [] [mkdecl "all_structs" false false []])) [] = Raise EAttributeError
  /\ run ex_bs (ttypes (mkprog false true ["shared"] [] [mkdecl "shared" false true [RIncl "shared"]])) [] = Raise EAttributeError.
Proof. vm_compute. auto. Qed.
Example C76_underscore_fails_ex :
  let p := mkprog false true [] [] [mkdecl "_hid" false true []] in
  let s := mkserv MSync false None [mksfn "f" false true [ROwn "_hid" KStruct] false []] in
  run ex_bs (ttypes p) [] = Ok (after_types p, []) /\ lookup ex_bs (after_types p) "_hid" = Some (OType "_hid" KStruct)
  /\ run ex_bs (service_module p s (after_types p)) [] = Raise ENameError.
Proof. vm_compute. auto. Qed.

(** Axioms used. *)
Print Assumptions C76_ttypes.
Print Assumptions C76_constants.
Print Assumptions C76_service.
Print Assumptions C76_written_alike_lost.
Print Assumptions C76_library.
Print Assumptions C76_package.
Print Assumptions C76_import.
Print Assumptions C76_service_import.
Print Assumptions C76_service_library.
Print Assumptions C76_import_fails.
Print Assumptions C76_underscore_fails.
