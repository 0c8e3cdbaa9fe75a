(** Facts about Modules.v: what is bound at the end of a module. *)
From Coq Require Import String Ascii.
From Coq Require Import ZArith List Bool Lia.
From Verif Require Import Base GenClass Service ServiceFacts Modules.
Import ListNotations.
Open Scope string_scope.
Open Scope list_scope.

Lemma tkind_eqb_refl k : tkind_eqb k k = true. Proof. destruct k; reflexivity. Qed.
Lemma obj_eqb_refl o : obj_eqb o o = true.
Proof. destruct o; cbn [obj_eqb]; try apply String.eqb_refl; try reflexivity. rewrite String.eqb_refl, tkind_eqb_refl. reflexivity. Qed.
Lemma obj_eqb_eq a b : obj_eqb a b = true -> a = b.
Proof.
  destruct a, b; cbn [obj_eqb]; try discriminate; intros H; try (apply String.eqb_eq in H; congruence); auto.
  apply andb_prop in H. destruct H as [H1 H2]. apply String.eqb_eq in H1. subst. f_equal.
  destruct k, k0; cbn in H2; congruence.
Qed.

Lemma mem_In n l : mem n l = true <-> In n l.
Proof.
  unfold mem. rewrite existsb_exists. split.
  - intros (x & H & E). apply String.eqb_eq in E. congruence.
  - intros H. exists n. split; [exact H|apply String.eqb_refl].
Qed.
Lemma mem_not n l : mem n l = false <-> ~ In n l.
Proof. rewrite <- mem_In. destruct (mem n l); split; congruence. Qed.

(** ** What statements bind *)

Definition bind_of (s : stmt) : globals := match s with Bind n o => [(n, o)] | _ => [] end.
Definition binds (ss : list stmt) : globals := flat_map bind_of ss.
Definition no_del (s : stmt) : bool := match s with Del _ => false | _ => true end.

Lemma binds_app a b : binds (a ++ b) = binds a ++ binds b.
Proof. unfold binds. apply flat_map_app. Qed.

Lemma run_app bs a : forall b g, run bs (a ++ b) g =
  match run bs a g with
  | Ok (g', w) => match run bs b g' with Ok (g'', w') => Ok (g'', w ++ w') | Raise e => Raise e | Diverge => Diverge end
  | Raise e => Raise e
  | Diverge => Diverge
  end.
Proof.
  induction a as [|s a IH]; intros b g; cbn [run app].
  - destruct (run bs b g) as [[? ?]| |]; reflexivity.
  - destruct (step bs s g) as [[g1 w1]| |]; auto. rewrite IH. destruct (run bs a g1) as [[g2 w2]| |]; auto.
    destruct (run bs b g2) as [[g3 w3]| |]; auto. rewrite app_assoc. reflexivity.
Qed.
Lemma run_binds bs : forall ss g g' w, forallb no_del ss = true -> run bs ss g = Ok (g', w) -> g' = rev (binds ss) ++ g.
Proof.
  induction ss as [|s ss IH]; intros g g' w Hd H; cbn [run] in H.
  - injection H as <- <-. reflexivity.
  - cbn [forallb] in Hd. apply andb_prop in Hd. destruct Hd as [Hs Hd].
    destruct (step bs s g) as [[g1 w1]| |] eqn:Es; try discriminate.
    destruct (run bs ss g1) as [[g2 w2]| |] eqn:Er; try discriminate. injection H as <- <-.
    apply IH in Er; [|exact Hd]. rewrite Er. change (binds (s :: ss)) with (bind_of s ++ binds ss).
    rewrite rev_app_distr, <- app_assoc. f_equal.
    destruct s; cbn [step bind_of rev app no_del] in *; try discriminate.
    + injection Es as <- _. reflexivity.
    + destruct (lookup bs g n); try discriminate. injection Es as <- _. reflexivity.
    + destruct (lookup bs g n) as [o'|]; try discriminate. destruct (obj_eqb o o'); [injection Es as <- _; reflexivity|].
      destruct o' as [| |? []| | |]; try discriminate. injection Es as <- _. reflexivity.
Qed.
Lemma run_closing bs g g' w : run bs closing g = Ok (g', w) ->
  g' = filter (fun b => negb (String.eqb "all_structs" (fst b))) g.
Proof.
  unfold closing. cbn [run step]. destruct (lookup bs g "fix_spec"); try discriminate.
  destruct (lookup bs g "all_structs"); try discriminate. destruct (assoc "all_structs" g); try discriminate.
  intros H. injection H as <- _. reflexivity.
Qed.
Lemma assoc_filter {A} n m (l : list (string * A)) :
  assoc n (filter (fun b => negb (String.eqb m (fst b))) l) = if String.eqb m n then None else assoc n l.
Proof.
  induction l as [|[k v] l IH]; cbn [filter assoc].
  - destruct (String.eqb m n); reflexivity.
  - cbn [fst]. destruct (String.eqb_spec m k) as [->|Hk]; cbn [negb].
    + rewrite IH. destruct (String.eqb_spec k n) as [->|Hn]; [reflexivity|].
      destruct (String.eqb_spec n k); [congruence|]. reflexivity.
    + cbn [assoc]. rewrite IH. destruct (String.eqb_spec m n) as [->|Hn]; [|reflexivity].
      destruct (String.eqb_spec n k); [congruence|reflexivity].
Qed.
Lemma assoc_public n (l : globals) :
  assoc n (filter (fun b => public (fst b)) l) = if public n then assoc n l else None.
Proof.
  induction l as [|[k v] l IH]; cbn [filter assoc fst].
  - destruct (public n); reflexivity.
  - destruct (public k) eqn:Ek; cbn [assoc]; rewrite IH; destruct (String.eqb_spec n k) as [->|Hn]; auto.
    + rewrite Ek. reflexivity.
    + rewrite Ek. reflexivity.
Qed.

(** ** ttypes.py *)

Definition type_list (p : prog) : list (string * tkind) :=
  map (fun e => (e, KEnum)) (p_enums p) ++ map (fun d => (d_name d, d_kind d)) (p_objs p).
Definition type_bind (x : string * tkind) : string * obj := (esc (fst x), OType (fst x) (snd x)).

Lemma binds_uses l : binds (map use_ref l) = [].
Proof. induction l as [|[] l IH]; auto. Qed.
Lemma binds_spec o d : binds (thrift_spec o d) = [].
Proof. unfold thrift_spec. rewrite !binds_app, binds_uses. destruct (d_fields d); reflexivity. Qed.
Lemma binds_flat {A} (f : A -> list stmt) l : binds (flat_map f l) = flat_map (fun x => binds (f x)) l.
Proof. induction l as [|x l IH]; auto. cbn [flat_map]. rewrite binds_app, IH. reflexivity. Qed.
Lemma flat_nil {A B} (f : A -> list B) l : (forall x, f x = []) -> flat_map f l = [].
Proof. intros H. induction l as [|x l IH]; auto. cbn [flat_map]. rewrite H, IH. reflexivity. Qed.
Lemma flat_single {A B} (f : A -> list B) (g : A -> B) l : (forall x, f x = [g x]) -> flat_map f l = map g l.
Proof. intros H. induction l as [|x l IH]; auto. cbn [flat_map map]. rewrite H, IH. reflexivity. Qed.
Lemma binds_lib l : binds (map lib l) = map (fun n => (n, OLib n)) l.
Proof. unfold binds. rewrite flat_map_concat_map, map_map, <- flat_map_concat_map. apply flat_single. reflexivity. Qed.
Lemma binds_pkg l : binds (map (fun r => Bind r (OPkg r)) l) = map (fun n => (n, OPkg n)) l.
Proof. unfold binds. rewrite flat_map_concat_map, map_map, <- flat_map_concat_map. apply flat_single. reflexivity. Qed.

Definition header (p : prog) : list stmt :=
  map lib (py_imports p) ++ map (fun r => Bind r (OPkg r)) (p_roots p)
  ++ [lib "TTransport"; Bind "all_structs" OStructs].
Definition classes (p : prog) : list stmt := flat_map (enum_class p) (p_enums p) ++ flat_map struct_class (p_objs p).
Definition specs (p : prog) : list stmt :=
  flat_map (fun d => thrift_spec (OType (d_name d) (d_kind d)) d) (p_objs p).
Lemma ttypes_parts p : ttypes p = header p ++ classes p ++ specs p ++ closing.
Proof. unfold ttypes, header, classes, specs. rewrite <- !app_assoc. reflexivity. Qed.

Lemma no_del_flat {A} (f : A -> list stmt) l : (forall x, forallb no_del (f x) = true) -> forallb no_del (flat_map f l) = true.
Proof. intros H. induction l as [|x l IH]; auto. cbn [flat_map]. rewrite forallb_app, H, IH. reflexivity. Qed.
Lemma no_del_map {A} (f : A -> stmt) l : (forall x, no_del (f x) = true) -> forallb no_del (map f l) = true.
Proof. intros H. induction l as [|x l IH]; auto. cbn [map forallb]. rewrite H, IH. reflexivity. Qed.
Lemma no_del_spec o d : forallb no_del (thrift_spec o d) = true.
Proof.
  unfold thrift_spec. rewrite !forallb_app. rewrite no_del_map by (intros []; reflexivity). destruct (d_fields d); reflexivity.
Qed.
Lemma no_del_header p : forallb no_del (header p) = true.
Proof. unfold header. rewrite !forallb_app, !no_del_map by reflexivity. reflexivity. Qed.
Lemma no_del_classes p : forallb no_del (classes p) = true.
Proof. unfold classes. rewrite forallb_app, !no_del_flat by reflexivity. reflexivity. Qed.
Lemma no_del_specs p : forallb no_del (specs p) = true.
Proof. unfold specs. apply no_del_flat. intros x. apply no_del_spec. Qed.

Definition header_binds (p : prog) : globals :=
  map (fun n => (n, OLib n)) (py_imports p) ++ map (fun n => (n, OPkg n)) (p_roots p)
  ++ [("TTransport", OLib "TTransport"); ("all_structs", OStructs)].
Lemma binds_header p : binds (header p) = header_binds p.
Proof. unfold header, header_binds. rewrite !binds_app, binds_lib, binds_pkg. reflexivity. Qed.
Lemma binds_classes p : binds (classes p) = map type_bind (type_list p).
Proof.
  unfold classes, type_list. rewrite binds_app, !binds_flat, map_app, !map_map. f_equal; apply flat_single; reflexivity.
Qed.
Lemma binds_specs p : binds (specs p) = [].
Proof. unfold specs. rewrite binds_flat. apply flat_nil. intros d. apply binds_spec. Qed.

Definition types_globals (p : prog) : globals :=
  filter (fun b => negb (String.eqb "all_structs" (fst b))) (rev (map type_bind (type_list p)) ++ rev (header_binds p)).
Lemma ttypes_globals bs p g w : run bs (ttypes p) [] = Ok (g, w) -> g = types_globals p.
Proof.
  intros H. rewrite ttypes_parts, !app_assoc, run_app in H.
  destruct (run bs ((header p ++ classes p) ++ specs p) []) as [[g1 w1]| |] eqn:E; try discriminate.
  destruct (run bs closing g1) as [[g2 w2]| |] eqn:E2; try discriminate. injection H as <- <-.
  apply run_closing in E2. apply run_binds in E.
  - rewrite E2, E. rewrite !binds_app, binds_header, binds_classes, binds_specs, !app_nil_r, rev_app_distr. reflexivity.
  - rewrite !forallb_app, no_del_header, no_del_classes, no_del_specs. reflexivity.
Qed.
Lemma assoc_types p n : assoc n (types_globals p) =
  if String.eqb "all_structs" n then None
  else match last_def n (map type_bind (type_list p)) with Some o => Some o | None => last_def n (header_binds p) end.
Proof. unfold types_globals. rewrite assoc_filter, assoc_app. reflexivity. Qed.

(** ** Last bindings *)

Lemma last_def_iff {A} n (v : A) : forall l, last_def n l = Some v <->
  exists a b, l = a ++ (n, v) :: b /\ forall w, ~ In (n, w) b.
Proof.
  induction l as [|[m w] l IH] using rev_ind.
  - split; [discriminate|]. intros (a & b & H & _). destruct a; discriminate.
  - rewrite last_def_app. unfold last_def at 1. cbn [rev app assoc].
    destruct (String.eqb_spec n m) as [->|Hn].
    + split.
      * intros H. injection H as <-. exists l, []. split; [reflexivity|]. intros u [].
      * intros (a & b & H & Hb). destruct b as [|x b] using rev_ind.
        -- apply app_inj_tail in H. destruct H as [_ H]. congruence.
        -- exfalso. rewrite app_comm_cons, app_assoc in H. apply app_inj_tail in H. destruct H as [_ H]. subst x.
           apply (Hb w). apply in_or_app. right. left. reflexivity.
    + rewrite IH. split.
      * intros (a & b & -> & Hb). exists a, (b ++ [(m, w)]). split; [rewrite <- app_assoc; reflexivity|].
        intros u Hu. apply in_app_or in Hu. destruct Hu as [Hu|[Hu|[]]]; [exact (Hb u Hu)|congruence].
      * intros (a & b & H & Hb). destruct b as [|x b _] using rev_ind.
        -- apply app_inj_tail in H. destruct H as [_ H]. congruence.
        -- rewrite app_comm_cons, app_assoc in H. apply app_inj_tail in H. destruct H as [H _]. exists a, b.
           split; [exact H|]. intros u Hu. apply (Hb u). apply in_or_app. left. exact Hu.
Qed.
Lemma last_def_none {A} n (l : list (string * A)) : last_def n l = None <-> forall v, ~ In (n, v) l.
Proof.
  split; [|apply last_def_absent]. intros H v Hv. induction l as [|[m w] l IH] using rev_ind; [destruct Hv|].
  rewrite last_def_app in H. unfold last_def at 1 in H. cbn [rev app assoc] in H.
  destruct (String.eqb_spec n m) as [->|Hn]; [discriminate|].
  apply in_app_or in Hv. destruct Hv as [Hv|[Hv|[]]]; [auto|congruence].
Qed.
Lemma last_def_in {A} n (v : A) l : last_def n l = Some v -> In (n, v) l.
Proof. intros H. apply last_def_iff in H. destruct H as (a & b & -> & _). apply in_elt. Qed.

(** The type a name finds: the last declared of those written so. *)
Definition latest (p : prog) (n t : string) (k : tkind) : Prop :=
  exists a b, type_list p = a ++ (t, k) :: b /\ esc t = n /\ forall u l, In (u, l) b -> esc u <> n.

Lemma types_last p n o : last_def n (map type_bind (type_list p)) = Some o <->
  exists t k, o = OType t k /\ latest p n t k.
Proof.
  rewrite last_def_iff. split.
  - intros (a & b & H & Hb). apply map_eq_app in H. destruct H as (a' & r & H & Ha & Hr).
    apply map_eq_cons in Hr. destruct Hr as ([t k] & b' & -> & E & Hb'). unfold type_bind in E. cbn [fst snd] in E.
    injection E as E1 E2. exists t, k. split; [congruence|]. exists a', b'. split; [exact H|]. split; [exact E1|].
    intros u l Hu E. apply (Hb (OType u l)). rewrite <- Hb'. apply in_map_iff. exists (u, l).
    split; [|exact Hu]. unfold type_bind. cbn [fst snd]. rewrite E. reflexivity.
  - intros (t & k & -> & a & b & H & E & Hb). exists (map type_bind a), (map type_bind b). split.
    + rewrite H, map_app. cbn [map]. unfold type_bind at 2. cbn [fst snd]. rewrite E. reflexivity.
    + intros w Hw. apply in_map_iff in Hw. destruct Hw as ([u l] & E' & Hu). unfold type_bind in E'. cbn [fst snd] in E'.
      injection E' as E' _. exact (Hb u l Hu E').
Qed.
Lemma types_none p n : last_def n (map type_bind (type_list p)) = None <->
  forall t k, In (t, k) (type_list p) -> esc t <> n.
Proof.
  rewrite last_def_none. split.
  - intros H t k Ht E. apply (H (OType t k)). apply in_map_iff. exists (t, k). split; [|exact Ht].
    unfold type_bind. cbn [fst snd]. rewrite E. reflexivity.
  - intros H o Ho. apply in_map_iff in Ho. destruct Ho as ([t k] & E & Ht). unfold type_bind in E. cbn [fst snd] in E.
    injection E as E _. exact (H t k Ht E).
Qed.
Lemma header_no_type p n t k : last_def n (header_binds p) <> Some (OType t k).
Proof.
  intros H. apply last_def_in in H. unfold header_binds in H. rewrite !in_app_iff, !in_map_iff in H.
  destruct H as [(x & E & _)|[(x & E & _)|[E|[E|[]]]]]; discriminate.
Qed.

(** ** The module of a service *)

Lemma binds_star g : binds (star g) = rev (filter (fun b => public (fst b)) g).
Proof.
  unfold star, binds. rewrite flat_map_concat_map, map_map, <- flat_map_concat_map.
  rewrite flat_single with (g := fun b => b); [apply map_id|]. intros []. reflexivity.
Qed.
Definition early_binds (p : prog) (s : serv) : globals :=
  map (fun n => (n, OLib n)) (py_imports p)
  ++ match m_extends s with Some r => [(r, OPkg r)] | None => [] end ++ [("logging", OLib "logging")].
Lemma binds_early p s : binds (early_imports p s) = early_binds p s.
Proof. unfold early_imports, early_binds. rewrite !binds_app, binds_lib. destruct (m_extends s); reflexivity. Qed.
Definition helper_binds (s : serv) : globals :=
  map (fun d => (esc (d_name d), OHelper (d_name d))) (flat_map helpers (m_fns s)).
Definition late_binds (s : serv) : globals :=
  map (fun n => (n, OLib n)) (late_imports s)
  ++ [("all_structs", OStructs); ("Iface", OOwn "Iface"); ("Client", OOwn "Client"); ("Processor", OOwn "Processor")]
  ++ helper_binds s.
Definition late (s : serv) : list stmt :=
  map lib (late_imports s) ++ [Bind "all_structs" OStructs]
  ++ iface_class s ++ client_class s ++ processor_class s
  ++ flat_map helper_class (flat_map helpers (m_fns s)).
Lemma service_parts p s g : service_module p s g = (early_imports p s ++ star g ++ late s) ++ closing.
Proof. unfold service_module, late. rewrite <- !app_assoc. reflexivity. Qed.
Lemma binds_late s : binds (late s) = late_binds s.
Proof.
  unfold late, late_binds, iface_class, client_class, processor_class, base_package, implementer, helper_binds.
  rewrite !binds_app, binds_lib, binds_flat, flat_single with (g := fun d => (esc (d_name d), OHelper (d_name d))).
  - destruct (m_extends s), (m_zope s); reflexivity.
  - intros d. unfold helper_class. rewrite binds_app, binds_spec. reflexivity.
Qed.
Lemma no_del_star g : forallb no_del (star g) = true.
Proof. unfold star. apply no_del_map. reflexivity. Qed.
Lemma no_del_early p s : forallb no_del (early_imports p s) = true.
Proof. unfold early_imports. rewrite !forallb_app, no_del_map by reflexivity. destruct (m_extends s); reflexivity. Qed.
Lemma no_del_late s : forallb no_del (late s) = true.
Proof.
  unfold late, iface_class, client_class, processor_class, base_package, implementer.
  rewrite !forallb_app, no_del_map, no_del_flat by (try reflexivity; intros d; unfold helper_class; rewrite forallb_app, no_del_spec; reflexivity).
  destruct (m_extends s), (m_zope s); reflexivity.
Qed.
Lemma service_assoc bs p s g g' w : run bs (service_module p s g) [] = Ok (g', w) -> forall n,
  assoc n g' =
  if String.eqb "all_structs" n then None
  else match last_def n (late_binds s) with
       | Some o => Some o
       | None => match (if public n then assoc n g else None) with
                 | Some o => Some o
                 | None => last_def n (early_binds p s)
                 end
       end.
Proof.
  intros H n. rewrite service_parts, run_app in H.
  destruct (run bs (early_imports p s ++ star g ++ late s) []) as [[g1 w1]| |] eqn:E; try discriminate.
  destruct (run bs closing g1) as [[g2 w2]| |] eqn:E2; try discriminate. injection H as <- <-.
  apply run_closing in E2. apply run_binds in E.
  - rewrite E2, assoc_filter, E, app_nil_r. destruct (String.eqb "all_structs" n); [reflexivity|].
    change (assoc n (rev (binds (early_imports p s ++ star g ++ late s)))) with (last_def n (binds (early_imports p s ++ star g ++ late s))).
    rewrite !binds_app, !last_def_app, binds_late, binds_early, binds_star.
    unfold last_def at 2. rewrite rev_involutive, assoc_public.
    destruct (last_def n (late_binds s)); [reflexivity|]. reflexivity.
  - rewrite !forallb_app, no_del_early, no_del_star, no_del_late. reflexivity.
Qed.

(** The names a service's module binds after it has imported the types. *)
Definition own_names (s : serv) : list string :=
  late_imports s ++ ["all_structs"; "Iface"; "Client"; "Processor"]
  ++ flat_map (fun f => (s_name f ++ "_args")%string :: if s_oneway f then [] else [(s_name f ++ "_result")%string]) (m_fns s).
Lemma late_names s : map fst (late_binds s) = own_names s.
Proof.
  unfold late_binds, own_names, helper_binds. rewrite !map_app, !map_map. cbn [fst]. rewrite map_id. f_equal. f_equal.
  induction (m_fns s) as [|f fs IH]; [reflexivity|]. cbn [flat_map]. rewrite map_app, IH. f_equal.
  unfold helpers. rewrite map_app. cbn [map d_name]. rewrite esc_args. destruct (s_oneway f); [reflexivity|].
  cbn [map d_name]. rewrite esc_result. reflexivity.
Qed.
Lemma late_in s n : last_def n (late_binds s) = None <-> ~ In n (own_names s).
Proof.
  rewrite last_def_none, <- late_names, in_map_iff. split.
  - intros H ([m o] & E & Hi). cbn [fst] in E. subst m. exact (H o Hi).
  - intros H o Ho. apply H. exists (n, o). auto.
Qed.
Lemma late_no_type s n t k : last_def n (late_binds s) <> Some (OType t k).
Proof.
  intros H. apply last_def_in in H. unfold late_binds, helper_binds in H. rewrite !in_app_iff, !in_map_iff in H.
  destruct H as [(x & E & _)|[[E|[E|[E|[E|[]]]]]|(x & E & _)]]; discriminate.
Qed.
Lemma early_no_type p s n t k : last_def n (early_binds p s) <> Some (OType t k).
Proof.
  intros H. apply last_def_in in H. unfold early_binds in H. rewrite !in_app_iff, !in_map_iff in H.
  destruct H as [(x & E & _)|[H|[E|[]]]]; try discriminate. destruct (m_extends s); [destruct H as [H|[]]; discriminate|destruct H].
Qed.

(** ** Imports without surprises *)

(** [M]: what each name is bound to, whenever it is bound. *)
Fixpoint clean (bs : list string) (M : string -> option obj) (seen : list string) (ss : list stmt) : Prop :=
  match ss with
  | [] => True
  | Bind n o :: r => M n = Some o /\ clean bs M (n :: seen) r
  | Use n o :: r | Attr n o :: r =>
      ((In n seen /\ M n = Some o) \/ (In n bs /\ M n = None /\ o = OLib n)) /\ clean bs M seen r
  | Del _ :: _ => False
  end.

Lemma clean_mono bs M : forall ss seen seen', incl seen seen' -> clean bs M seen ss -> clean bs M seen' ss.
Proof.
  induction ss as [|[n o|n o|n o|n] ss IH]; intros seen seen' Hi H; cbn [clean] in *; auto.
  - destruct H as [H1 H2]. split; [exact H1|]. eapply IH; [|exact H2]. intros x [->|Hx]; [left; reflexivity|right; auto].
  - destruct H as [[[H1 H1']|H1] H2]; split; eauto.
  - destruct H as [[[H1 H1']|H1] H2]; split; eauto.
Qed.
Lemma clean_app bs M : forall a seen b,
  clean bs M seen a -> clean bs M (map fst (binds a) ++ seen) b -> clean bs M seen (a ++ b).
Proof.
  induction a as [|[n o|n o|n o|n] a IH]; intros seen b Ha Hb; cbn [clean app] in *; auto.
  - destruct Ha as [H1 H2]. split; [exact H1|]. apply IH; [exact H2|]. eapply clean_mono; [|exact Hb].
    intros x Hx. cbn [binds flat_map bind_of app map fst] in Hx. destruct Hx as [Hx|Hx].
    + subst x. apply in_or_app. right. left. reflexivity.
    + apply in_app_or in Hx. apply in_or_app. destruct Hx; [left; assumption|right; right; assumption].
  - destruct Ha as [H1 H2]. split; [exact H1|]. apply IH; assumption.
  - destruct Ha as [H1 H2]. split; [exact H1|]. apply IH; assumption.
Qed.
Lemma clean_flat {A} bs M seen (f : A -> list stmt) l :
  (forall x, In x l -> clean bs M seen (f x)) -> clean bs M seen (flat_map f l).
Proof.
  induction l as [|x l IH]; intros H; [exact I|]. cbn [flat_map]. apply clean_app; [apply H; left; reflexivity|].
  eapply clean_mono; [|apply IH; intros y Hy; apply H; right; exact Hy]. intros y Hy. apply in_or_app. auto.
Qed.
Lemma clean_binds bs M : forall ss seen, forallb (fun s => match s with Bind _ _ => true | _ => false end) ss = true ->
  (forall n o, In (n, o) (binds ss) -> M n = Some o) -> clean bs M seen ss.
Proof.
  induction ss as [|[n o| | |] ss IH]; intros seen Hb HM; try discriminate; [exact I|]. cbn [clean]. split.
  - apply HM. left. reflexivity.
  - apply IH; [exact Hb|]. intros m q Hm. apply HM. right. exact Hm.
Qed.

Lemma run_clean bs M : forall ss seen g,
  (forall n, assoc n g = None \/ assoc n g = M n) -> (forall n, In n seen -> assoc n g <> None) ->
  clean bs M seen ss -> run bs ss g = Ok (rev (binds ss) ++ g, []).
Proof.
  induction ss as [|s ss IH]; intros seen g Hg Hs H; [reflexivity|].
  assert (U : forall n o, ((In n seen /\ M n = Some o) \/ (In n bs /\ M n = None /\ o = OLib n)) -> lookup bs g n = Some o).
  { intros n o [[H1 H2]|(H1 & H2 & ->)]; unfold lookup.
    - destruct (Hg n) as [E|E]; [destruct (Hs n H1 E)|]. rewrite E, H2. reflexivity.
    - assert (E : assoc n g = None) by (destruct (Hg n); congruence). rewrite E. apply mem_In in H1. rewrite H1. reflexivity. }
  destruct s as [n o|n o|n o|n]; cbn [clean] in H; [| | |destruct H]; destruct H as [H1 H2]; cbn [run step].
  - rewrite (IH (n :: seen)); [|..|exact H2].
    + cbn [app]. change (binds (Bind n o :: ss)) with ((n, o) :: binds ss). cbn [rev]. rewrite <- app_assoc. reflexivity.
    + intros m. cbn [assoc]. destruct (String.eqb_spec m n) as [->|Hm]; [right; auto|apply Hg].
    + intros m Hm. cbn [assoc]. destruct (String.eqb_spec m n) as [->|Hm']; [discriminate|].
      destruct Hm as [->|Hm]; [congruence|]. apply Hs. exact Hm.
  - rewrite (U n o H1), obj_eqb_refl, (IH seen g Hg Hs H2). reflexivity.
  - rewrite (U n o H1), obj_eqb_refl, (IH seen g Hg Hs H2). reflexivity.
Qed.
Lemma run_clean_closing bs M ss : (forall n, In n ["fix_spec"; "all_structs"] -> In n (map fst (binds ss))) ->
  M "fix_spec" = Some (OLib "fix_spec") -> M "all_structs" = Some OStructs ->
  clean bs M [] ss -> exists g, run bs (ss ++ closing) [] = Ok (g, []).
Proof.
  intros Hin H1 H2 H.
  set (uses := [Use "fix_spec" (OLib "fix_spec"); Use "all_structs" OStructs]).
  assert (C : clean bs M [] (ss ++ uses)).
  { apply clean_app; [exact H|]. unfold uses. cbn [clean]. rewrite !in_app_iff. repeat split; left; (split; [left|assumption]);
      apply Hin; cbn [In]; auto. }
  apply (run_clean _ _ _ _ []) in C; [|intros n; left; reflexivity|intros n []].
  change closing with (uses ++ [Del "all_structs"]). rewrite app_assoc, run_app, C. cbn [run step].
  assert (E : assoc "all_structs" (rev (binds (ss ++ uses)) ++ []) <> None).
  { rewrite app_nil_r. change (last_def "all_structs" (binds (ss ++ uses)) <> None). rewrite last_def_none. intros N.
    assert (Ha : In "all_structs" (map fst (binds ss))) by (apply Hin; cbn [In]; auto).
    apply in_map_iff in Ha. destruct Ha as ([m o] & Em & Ha). cbn [fst] in Em. subst m. apply (N o). rewrite binds_app.
    apply in_or_app. left. exact Ha. }
  destruct (assoc "all_structs" (rev (binds (ss ++ uses)) ++ [])); [|congruence]. eexists. reflexivity.
Qed.
