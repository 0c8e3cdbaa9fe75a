(** Proofs about names in generated services. *)
From Coq Require Import String Ascii.
From Coq Require Import ZArith List Bool Lia.
From Verif Require Import Base GenClass GenClassFacts Service SpecService.
Import ListNotations.
Open Scope string_scope.
Open Scope list_scope.

(** * Strings *)

Lemma append_inj_l q : forall a b, (q ++ a)%string = (q ++ b)%string -> a = b.
Proof. induction q as [|c q IH]; cbn [append]; intros a b H; [assumption|]. injection H as H. apply IH. assumption. Qed.

Lemma slist_app a b : list_ascii_of_string (a ++ b) = list_ascii_of_string a ++ list_ascii_of_string b.
Proof. induction a as [|c a IH]; cbn [append list_ascii_of_string]; [reflexivity|]. rewrite IH. reflexivity. Qed.
Lemma slist_inj a b : list_ascii_of_string a = list_ascii_of_string b -> a = b.
Proof. intros H. rewrite <- (string_of_list_ascii_of_string a), H. apply string_of_list_ascii_of_string. Qed.
Lemma append_inj_r q a b : (a ++ q)%string = (b ++ q)%string -> a = b.
Proof.
  intros H. apply slist_inj. apply (app_inv_tail (list_ascii_of_string q)).
  rewrite <- !slist_app, H. reflexivity.
Qed.
Lemma last_differs a b q r c d :
  (a ++ q)%string = (b ++ r)%string ->
  hd_error (rev (list_ascii_of_string q)) = Some c -> hd_error (rev (list_ascii_of_string r)) = Some d -> c = d.
Proof.
  intros H Hq Hr. assert (E : rev (list_ascii_of_string (a ++ q)) = rev (list_ascii_of_string (b ++ r)))
    by (rewrite H; reflexivity).
  rewrite !slist_app, !rev_app_distr in E.
  destruct (rev (list_ascii_of_string q)); [discriminate|]. destruct (rev (list_ascii_of_string r)); [discriminate|].
  cbn [hd_error] in *. cbn [app] in E. congruence.
Qed.

Definition underscored (n : string) : bool := existsb (Ascii.eqb "_"%char) (list_ascii_of_string n).
Lemma keyword_not_underscored n : In n python_keywords_ -> underscored n = false.
Proof.
  intros H. assert (F : forallb (fun w => negb (underscored w)) python_keywords_ = true) by reflexivity.
  rewrite forallb_forall in F. specialize (F n H). destruct (underscored n); [discriminate|reflexivity].
Qed.
Lemma not_keyword n q : underscored q = true -> ~ In (n ++ q)%string python_keywords_.
Proof.
  intros Hq H. apply keyword_not_underscored in H. unfold underscored in *.
  rewrite slist_app, existsb_app, Hq, orb_true_r in H. discriminate.
Qed.
Lemma not_keyword' n q : underscored q = true -> ~ In (q ++ n)%string python_keywords_.
Proof.
  intros Hq H. apply keyword_not_underscored in H. unfold underscored in *.
  rewrite slist_app, existsb_app, Hq in H. discriminate.
Qed.
Lemma esc_id n : ~ In n python_keywords_ -> esc n = n.
Proof.
  intros H. unfold esc. destruct (mem n python_keywords_) eqn:E; [|reflexivity].
  apply mem_In in E. contradiction.
Qed.
Lemma esc_keyword n : In n python_keywords_ -> esc n = (n ++ "_")%string.
Proof. intros H. unfold esc. apply mem_In in H. rewrite H. reflexivity. Qed.
Lemma esc_cases n : (~ In n python_keywords_ /\ esc n = n) \/ (In n python_keywords_ /\ esc n = (n ++ "_")%string).
Proof.
  unfold esc. destruct (mem n python_keywords_) eqn:E.
  - right. apply mem_In in E. auto.
  - left. apply mem_not in E. auto.
Qed.
Lemma esc_args n : esc (n ++ "_args") = (n ++ "_args")%string.
Proof. apply esc_id. apply not_keyword. reflexivity. Qed.
Lemma esc_result n : esc (n ++ "_result") = (n ++ "_result")%string.
Proof. apply esc_id. apply not_keyword. reflexivity. Qed.

(** * Definitions, the last one wins *)

Lemma assoc_app {A} n (a b : list (string * A)) :
  assoc n (a ++ b) = match assoc n a with Some v => Some v | None => assoc n b end.
Proof.
  induction a as [|[m v] a IH]; cbn [app assoc]; [reflexivity|]. destruct (String.eqb n m); [reflexivity|apply IH].
Qed.
Lemma last_def_app {A} n (a b : list (string * A)) :
  last_def n (a ++ b) = match last_def n b with Some v => Some v | None => last_def n a end.
Proof. unfold last_def. rewrite rev_app_distr. apply assoc_app. Qed.

Lemma assoc_found {A} n (l : list (string * A)) v : In (n, v) l -> (forall w, In (n, w) l -> w = v) ->
  assoc n l = Some v.
Proof.
  induction l as [|[m w] l IH]; intros Hi Hu; [destruct Hi|]. cbn [assoc].
  destruct (String.eqb_spec n m) as [->|Hne].
  - rewrite (Hu w); [reflexivity|left; reflexivity].
  - destruct Hi as [E|Hi]; [congruence|]. apply IH; [assumption|]. intros x Hx. apply Hu. right. assumption.
Qed.
Lemma last_def_found {A} n (l : list (string * A)) v : In (n, v) l -> (forall w, In (n, w) l -> w = v) ->
  last_def n l = Some v.
Proof.
  intros Hi Hu. unfold last_def. apply assoc_found; [apply in_rev in Hi; assumption|].
  intros w Hw. apply Hu. apply in_rev. assumption.
Qed.
Lemma assoc_absent {A} n (l : list (string * A)) : (forall w, ~ In (n, w) l) -> assoc n l = None.
Proof.
  induction l as [|[m w] l IH]; intros H; [reflexivity|]. cbn [assoc].
  destruct (String.eqb_spec n m) as [->|]; [exfalso; apply (H w); left; reflexivity|].
  apply IH. intros x Hx. apply (H x). right. assumption.
Qed.
Lemma last_def_absent {A} n (l : list (string * A)) : (forall w, ~ In (n, w) l) -> last_def n l = None.
Proof. intros H. unfold last_def. apply assoc_absent. intros w Hw. apply (H w). apply in_rev. assumption. Qed.

(** * Places in a chain *)

Lemma NoDup_left {A} (a b : list A) : NoDup (a ++ b) -> NoDup a.
Proof.
  induction a as [|x a IH]; intros H; [constructor|]. inversion H as [|? ? H1 H2]; subst.
  constructor; [|apply IH; assumption]. intros Hx. apply H1. apply in_or_app. left. assumption.
Qed.
Lemma NoDup_right {A} (a b : list A) : NoDup (a ++ b) -> NoDup b.
Proof. induction a as [|x a IH]; intros H; [assumption|]. inversion H; subst. apply IH. assumption. Qed.

Definition at_place (ch : chain) (k : nat) (f : fn) : Prop := exists fs, nth_error ch k = Some fs /\ In f fs.

Lemma place_in ch k f : at_place ch k f -> In (fn_name f) (functions ch).
Proof.
  intros (fs & H & Hf). unfold functions. apply in_map. apply in_concat. exists fs. split; [|assumption].
  apply (nth_error_In _ _ H).
Qed.
Lemma place_unique ch : accepted ch -> forall k f k' g, at_place ch k f -> at_place ch k' g ->
  fn_name f = fn_name g -> k = k' /\ f = g.
Proof.
  unfold accepted, functions. induction ch as [|fs ch IH]; intros N k f k' g (a & Ha & Hf) (b & Hb & Hg) E.
  - destruct k; discriminate.
  - cbn [concat] in N. rewrite map_app in N.
    assert (D : forall x, In x (map fn_name fs) -> In x (map fn_name (concat ch)) -> False).
    { clear - N. induction fs as [|u fs IH]; intros x H1 H2; [destruct H1|]. cbn [map app] in *.
      inversion N as [|? ? N1 N2]; subst. destruct H1 as [<-|H1]; [|apply (IH N2 x); assumption].
      apply N1. apply in_or_app. right. assumption. }
    destruct k as [|k], k' as [|k']; cbn [nth_error] in *.
    + injection Ha as <-. injection Hb as <-. split; [reflexivity|].
      clear - N Hf Hg E. apply NoDup_left in N.
      induction fs as [|u fs IH]; [destruct Hf|]. cbn [map] in N. inversion N as [|? ? N1 N2]; subst.
      destruct Hf as [->|Hf], Hg as [->|Hg]; auto.
      * exfalso. apply N1. rewrite E. apply in_map. assumption.
      * exfalso. apply N1. rewrite <- E. apply in_map. assumption.
    + injection Ha as <-. exfalso. apply (D (fn_name f)); [apply in_map; assumption|].
      rewrite E. apply in_map. apply in_concat. exists b. split; [apply (nth_error_In _ _ Hb)|assumption].
    + injection Hb as <-. exfalso. apply (D (fn_name g)); [apply in_map; assumption|].
      rewrite <- E. apply in_map. apply in_concat. exists a. split; [apply (nth_error_In _ _ Ha)|assumption].
    + destruct (IH (NoDup_right _ _ N) k f k' g) as [-> ->]; auto; [exists a; auto|exists b; auto].
Qed.

Fixpoint all_defs (fl : flavour) (s : nat) (ch : chain) : list (string * meth) :=
  match ch with
  | [] => []
  | fs :: r => class_defs fl s fs ++ all_defs fl (S s) r
  end.
Lemma class_attr_all fl n : forall ch s, class_attr fl s ch n = last_def n (all_defs fl s ch).
Proof.
  induction ch as [|fs ch IH]; intros s; cbn [class_attr all_defs]; [reflexivity|].
  rewrite last_def_app, IH. reflexivity.
Qed.
Lemma all_defs_in fl n m : forall ch s, In (n, m) (all_defs fl s ch) ->
  n = "__init__" \/ (fl = Tornado /\ n = "_start_receiving")
  \/ exists k f, at_place ch k f /\ In (n, m) (fn_defs fl (s + k) f).
Proof.
  induction ch as [|fs ch IH]; intros s H; cbn [all_defs] in H; [destruct H|].
  apply in_app_or in H as [H|H].
  - unfold class_defs in H. apply in_app_or in H as [[H|[]]|H]; [left; congruence|].
    apply in_app_or in H as [H|H].
    + right. left. destruct fl, s; cbn [In] in H; try contradiction. destruct H as [H|[]]. split; congruence.
    + right. right. apply in_flat_map in H as (f & Hf & H). exists O, f. split; [exists fs; auto|].
      rewrite Nat.add_0_r. assumption.
  - destruct (IH (S s) H) as [A|[A|(k & f & (gs & A1 & A2) & B)]]; [left; assumption|right; left; assumption|].
    right. right. exists (S k), f. split; [exists gs; auto|]. rewrite <- Nat.add_succ_comm. assumption.
Qed.
Lemma all_defs_place fl n m : forall ch s k f, at_place ch k f -> In (n, m) (fn_defs fl (s + k) f) ->
  In (n, m) (all_defs fl s ch).
Proof.
  induction ch as [|fs ch IH]; intros s k f (gs & A1 & A2) B; [destruct k; discriminate|].
  cbn [all_defs]. apply in_or_app. destruct k as [|k].
  - cbn [nth_error] in A1. injection A1 as <-. left. unfold class_defs. apply in_or_app. right. apply in_or_app.
    right. apply in_flat_map. exists f. split; [assumption|]. rewrite Nat.add_0_r in B. assumption.
  - right. apply (IH (S s) k f); [exists gs; auto|]. rewrite Nat.add_succ_comm. assumption.
Qed.

(** The names of one function. *)
Lemma fn_defs_in fl s f n m : In (n, m) (fn_defs fl s f) ->
  (n = esc (fn_name f) /\ m = MCall s f)
  \/ (n = ("send_" ++ esc (fn_name f))%string /\ m = MSend s f)
  \/ (n = ("recv_" ++ esc (fn_name f))%string /\ m = MRecv s f)
  \/ (fl = Twisted /\ n = ("cb_send_" ++ fn_name f)%string /\ m = MCb s f)
  \/ (fl = Twisted /\ n = ("eb_send_" ++ fn_name f)%string /\ m = MEb s f).
Proof.
  unfold fn_defs. intros H. apply in_app_or in H as [[H|[]]|H]; [left; split; congruence|].
  apply in_app_or in H as [H|H].
  - destruct fl; try contradiction. destruct H as [H|[H|[]]]; injection H as <- <-; auto 10.
  - apply in_app_or in H as [[H|[]]|H]; [injection H as <- <-; auto 10|].
    destruct (fn_oneway f); [destruct H|]. destruct H as [H|[]]. injection H as <- <-. auto 10.
Qed.

Lemma plain_found fl ch k f n m : accepted ch -> plain_services fl ch -> at_place ch k f ->
  In (n, m) (fn_defs fl k f) -> class_attr fl 0 ch n = Some m.
Proof.
  intros Hn (P1 & P2 & P3) Hf Hd. rewrite class_attr_all.
  pose proof (place_in ch k f Hf) as If.
  apply last_def_found; [apply (all_defs_place fl n m ch 0 k f Hf Hd)|].
  intros w Hw. apply fn_defs_in in Hd. rewrite (esc_id (fn_name f)) in Hd by (apply P1; assumption).
  apply all_defs_in in Hw as [Hw|[[-> Hw]|(k' & g & Hg & Hw)]].
  - exfalso. destruct Hd as [[E _]|[[E _]|[[E _]|[[_ [E _]]|[_ [E _]]]]]]; rewrite Hw in E; cbn [append] in E;
      try discriminate E. apply (P3 (fn_name f) If). left. congruence.
  - exfalso. destruct Hd as [[E _]|[[E _]|[[E _]|[[_ [E _]]|[_ [E _]]]]]]; rewrite Hw in E; cbn [append] in E;
      try discriminate E. apply (P3 (fn_name f) If). right. left. congruence.
  - pose proof (place_in ch k' g Hg) as Ig. apply fn_defs_in in Hw. cbn [Nat.add] in Hw.
    rewrite (esc_id (fn_name g)) in Hw by (apply P1; assumption).
    assert (U : fn_name f = fn_name g -> k = k' /\ f = g) by (apply (place_unique ch Hn); assumption).
    destruct Hd as [[E1 ->]|[[E1 ->]|[[E1 ->]|[[T1 [E1 ->]]|[T1 [E1 ->]]]]]];
      destruct Hw as [[E2 ->]|[[E2 ->]|[[E2 ->]|[[T2 [E2 ->]]|[T2 [E2 ->]]]]]]; rewrite E1 in E2;
      try (apply append_inj_l in E2; destruct (U E2) as [-> ->]; reflexivity);
      try (destruct (U E2) as [-> ->]; reflexivity);
      try (exfalso; cbn [append] in E2; discriminate E2);
      exfalso.
    all: first
      [ apply (P2 (fn_name f) (fn_name g) "send_"%string If Ig); [destruct fl; cbn; tauto|exact E2]
      | apply (P2 (fn_name f) (fn_name g) "recv_"%string If Ig); [destruct fl; cbn; tauto|exact E2]
      | apply (P2 (fn_name f) (fn_name g) "cb_send_"%string If Ig); [subst fl; cbn; tauto|exact E2]
      | apply (P2 (fn_name f) (fn_name g) "eb_send_"%string If Ig); [subst fl; cbn; tauto|exact E2]
      | apply (P2 (fn_name g) (fn_name f) "send_"%string Ig If); [destruct fl; cbn; tauto|symmetry; exact E2]
      | apply (P2 (fn_name g) (fn_name f) "recv_"%string Ig If); [destruct fl; cbn; tauto|symmetry; exact E2]
      | apply (P2 (fn_name g) (fn_name f) "cb_send_"%string Ig If); [subst fl; cbn; tauto|symmetry; exact E2]
      | apply (P2 (fn_name g) (fn_name f) "eb_send_"%string Ig If); [subst fl; cbn; tauto|symmetry; exact E2] ].
Qed.

Lemma not_instance fl q n : In q ["send_"; "recv_"]%string -> mem (q ++ n) (instance_attrs fl) = false.
Proof. intros [<-|[<-|[]]]; destruct fl; reflexivity. Qed.

(** * Helper classes *)

Lemma helper_in f n c : In (n, c) (helper_defs f) ->
  (n = (fn_name f ++ "_args")%string /\ c = HArgs f)
  \/ (fn_oneway f = false /\ n = (fn_name f ++ "_result")%string /\ c = HResult f).
Proof.
  unfold helper_defs. rewrite esc_args, esc_result. intros H. apply in_app_or in H as [[H|[]]|H].
  - injection H as <- <-. auto.
  - destruct (fn_oneway f); [destruct H|]. destruct H as [H|[]]. injection H as <- <-. auto.
Qed.
Lemma fn_unique fs f g : NoDup (map fn_name fs) -> In f fs -> In g fs -> fn_name f = fn_name g -> f = g.
Proof.
  induction fs as [|u fs IH]; intros N Hf Hg E; [destruct Hf|]. cbn [map] in N. inversion N as [|? ? N1 N2]; subst.
  destruct Hf as [->|Hf], Hg as [->|Hg]; auto.
  - exfalso. apply N1. rewrite E. apply in_map. assumption.
  - exfalso. apply N1. rewrite <- E. apply in_map. assumption.
Qed.
Lemma global_args types fs f : NoDup (map fn_name fs) -> In f fs ->
  global_class types fs (fn_name f ++ "_args") = Some (HArgs f).
Proof.
  intros N Hf. unfold global_class. rewrite (last_def_found _ _ (HArgs f)); [reflexivity| |].
  - apply in_flat_map. exists f. split; [assumption|]. left. rewrite esc_args. reflexivity.
  - intros w Hw. apply in_flat_map in Hw as (g & Hg & Hw). apply helper_in in Hw as [[E ->]|(_ & E & _)].
    + apply append_inj_r in E. rewrite (fn_unique fs f g N Hf Hg E). reflexivity.
    + pose proof (last_differs _ _ _ _ _ _ E eq_refl eq_refl) as D. discriminate D.
Qed.
Lemma global_result types fs f : NoDup (map fn_name fs) -> In f fs -> fn_oneway f = false ->
  global_class types fs (fn_name f ++ "_result") = Some (HResult f).
Proof.
  intros N Hf Ho. unfold global_class. rewrite (last_def_found _ _ (HResult f)); [reflexivity| |].
  - apply in_flat_map. exists f. split; [assumption|]. unfold helper_defs. rewrite Ho, esc_result. right. left. reflexivity.
  - intros w Hw. apply in_flat_map in Hw as (g & Hg & Hw). apply helper_in in Hw as [[E _]|(_ & E & ->)].
    + pose proof (last_differs _ _ _ _ _ _ E eq_refl eq_refl) as D. discriminate D.
    + apply append_inj_r in E. rewrite (fn_unique fs f g N Hf Hg E). reflexivity.
Qed.
Lemma accepted_module ch k fs : accepted ch -> nth_error ch k = Some fs -> NoDup (map fn_name fs).
Proof.
  unfold accepted, functions. revert k. induction ch as [|gs ch IH]; intros k N H; [destruct k; discriminate|].
  cbn [concat] in N. rewrite map_app in N. destruct k as [|k]; cbn [nth_error] in H.
  - injection H as ->. apply (NoDup_left _ _ N).
  - apply (IH k (NoDup_right _ _ N) H).
Qed.

(** * Parameters *)

Lemma distinct_NoDup l : distinct l = true -> NoDup l.
Proof.
  induction l as [|x l IH]; cbn [distinct]; intros H; constructor; apply andb_prop in H as [H1 H2].
  - intros Hx. apply mem_In in Hx. rewrite Hx in H1. discriminate.
  - apply IH. assumption.
Qed.
Lemma assoc_combine {A} : forall (ns : list string) (vs : list A) i n v l, NoDup ns ->
  nth_error ns i = Some n -> nth_error vs i = Some v -> assoc n (combine ns vs ++ l) = Some v.
Proof.
  induction ns as [|m ns IH]; intros vs i n v l N Hn Hv; [destruct i; discriminate|].
  destruct vs as [|w vs]; [destruct i; discriminate|]. inversion N as [|? ? N1 N2]; subst.
  cbn [combine app assoc]. destruct i as [|i]; cbn [nth_error] in *.
  - injection Hn as ->. injection Hv as ->. rewrite String.eqb_refl. reflexivity.
  - destruct (String.eqb_spec n m) as [->|]; [|apply (IH vs i); assumption].
    exfalso. apply N1. apply (nth_error_In _ _ Hn).
Qed.
