(** C37: the fix-up of recursive field tables. *)
From Coq Require Import ZArith List Bool Lia ZifyNat.
From Verif Require Import Base Proto Spec Recursive RecursiveFacts.
Import ListNotations.
Open Scope Z_scope.

(** Any tables, any heap (sharing included), any list of classes: the fix-up
    succeeds; each reference in a table of a listed class then holds its class's
    table, every other object is as before, and no object changes class. *)
Theorem C37_fix_spec : forall classes all h,
  (forall c, In c all -> exists spec, classes c = Some spec
     /\ forall f, In (Some f) spec -> exists t, fs_type f = code t
        /\ describes h t (fs_args f) /\ forall c', In c' (names t) -> classes c' <> None) ->
  exists h', fix_spec classes all h = Ok h'
  /\ (forall c spec f t, In c all -> classes c = Some spec -> In (Some f) spec ->
        fs_type f = code t -> describes h t (fs_args f) -> resolved h' t (fs_args f))
  /\ (forall l, ~ (exists c spec f, In c all /\ classes c = Some spec
                     /\ In (Some f) spec /\ refers l (fs_args f)) -> h' l = h l)
  /\ (forall l, option_map c_class (h' l) = option_map c_class (h l)).
Proof.
  intros classes all h H. destruct (fix_spec_ok classes all h H) as (h' & E & F).
  exists h'. split; [exact E|]. split; [|split].
  - intros c spec f t Hc Es Hf _ Hd. eapply fixed_resolved; [exact F| |exact Hd].
    intros l R. exists c, spec. repeat split; try assumption. exists f. auto.
  - intros l Hn. apply F. intros (c & spec & H1 & H2 & f & H3 & H4). apply Hn.
    exists c, spec, f. auto.
  - apply F.
Qed.

(** The tables the compiler emits for a module meet those conditions, and every
    field without negative ids around it gets a resolved entry. *)
Theorem C37_emitted : forall imm env specs h, schema_closed env = true ->
  emit_module imm env (O, fun _ => None) = (specs, h) ->
  exists h', fix_spec (nth_error specs) (seq 0 (length env)) h = Ok h'
  /\ forall n ds, nth_error env n = Some ds -> (forall d, In d ds -> 0 <= f_id d) ->
     exists spec, nth_error specs n = Some spec
     /\ forall d, In d ds -> exists f, In (Some f) spec /\ fs_id f = f_id d
          /\ fs_type f = code (f_ty d) /\ resolved h' (f_ty d) (fs_args f).
Proof.
  intros imm env specs h Hcl E.
  destruct (emit_module_ok _ _ _ _ _ E) as (p & _ & HL & H).
  assert (Hnames : forall ds d, In ds env -> In d ds -> forall c, In c (names (f_ty d)) ->
            nth_error specs c <> None).
  { intros ds d Hds Hd. unfold schema_closed in Hcl. rewrite forallb_forall in Hcl.
    specialize (Hcl ds Hds). rewrite forallb_forall in Hcl. specialize (Hcl d Hd).
    revert Hcl. generalize (f_ty d) as t. induction t; cbn [names closed_ty]; intros Hc c Hi;
      try contradiction; auto.
    - apply andb_prop in Hc. apply in_app_or in Hi. destruct Hc, Hi; auto.
    - destruct Hi as [<-|[]]. apply nth_error_Some. rewrite HL.
      apply Nat.ltb_lt, Hc. }
  destruct (C37_fix_spec (nth_error specs) (seq 0 (length env)) h) as (h' & E' & R & _).
  - intros c Hc. apply in_seq in Hc. destruct (nth_error specs c) as [spec|] eqn:Es.
    2:{ apply nth_error_None in Es. lia. }
    exists spec. split; [reflexivity|]. destruct (H c spec Es) as (ds & Eds & F & _).
    intros f Hf. destruct (F f Hf) as (d & Hd & _ & Ht & S & _). exists (f_ty d).
    split; [exact Ht|]. split; [exact S|]. apply (Hnames ds d); [|exact Hd].
    eapply nth_error_In, Eds.
  - exists h'. split; [exact E'|]. intros n ds En Hn.
    destruct (nth_error specs n) as [spec|] eqn:Es.
    2:{ apply nth_error_None in Es.
        assert (n < length env)%nat by (apply nth_error_Some; congruence). lia. }
    exists spec. split; [reflexivity|]. destruct (H n spec Es) as (ds' & Eds & _ & G).
    replace ds' with ds in * by congruence.
    intros d Hd. destruct (G Hn d Hd) as (f & H1 & H2 & H3 & S & _). exists f.
    repeat split; try assumption.
    apply (R n spec f (f_ty d)); try assumption. apply in_seq.
    assert (n < length env)%nat by (apply nth_error_Some; congruence). lia.
Qed.

(** A second run changes nothing. *)
Theorem C37_idempotent : forall classes all h h',
  (forall c, In c all -> exists spec, classes c = Some spec
     /\ forall f, In (Some f) spec -> exists t, fs_type f = code t
        /\ describes h t (fs_args f) /\ forall c', In c' (names t) -> classes c' <> None) ->
  fix_spec classes all h = Ok h' ->
  exists h'', fix_spec classes all h' = Ok h'' /\ forall l, h'' l = h' l.
Proof.
  intros classes all h h' H E.
  destruct (fix_spec_ok classes all h H) as (h1 & E1 & F1).
  assert (h1 = h') by congruence. subst h1.
  destruct (fix_spec_ok classes all h') as (h2 & E2 & F2).
  { intros c Hc. destruct (H c Hc) as (spec & Es & Hf). exists spec. split; [exact Es|].
    intros f Hi. eapply entry_same; [apply F1|]. apply Hf, Hi. }
  exists h2. split; [exact E2|]. intros l.
  destruct (in_classes_dec classes all l) as [I|I]; [|apply F2, I].
  destruct F1 as (S1 & A1 & _), F2 as (S2 & A2 & _).
  specialize (S1 l). destruct (h l) as [[c k]|] eqn:El.
  - rewrite (A1 l I c k El). apply (A2 l I c (Some c)). apply (A1 l I c k El).
  - destruct (h' l) as [x|] eqn:El'; [discriminate S1|].
    specialize (S2 l). rewrite El' in S2. destruct (h2 l); [discriminate S2|reflexivity].
Qed.

(** * A non-trivial case: struct A { 1: map<A, list<set<B>>> m; 3: i32 n },
    struct B { 2: A a } *)
Definition ex_rec : schema :=
  [ [mkfield 1 (TMap (TStruct 0) (TList (TSet (TStruct 1)))) false None;
     mkfield 3 TI32 false None];
    [mkfield 2 (TStruct 0) false None] ].

Example C37_ex : schema_closed ex_rec = true
  /\ let '(specs, h) := emit_module false ex_rec (O, fun _ => None) in
     map h [0; 1; 2; 3]%nat
     = [Some (mkcell 0 None); Some (mkcell 1 None); Some (mkcell 0 None); None]
     /\ nth_error specs 1 = Some [None; None; Some (mkfspec 2 T_STRUCT 0 (ARef 2) 0)]
     /\ match fix_spec (nth_error specs) [0; 1]%nat h with
        | Ok h' => map h' [0; 1; 2; 3]%nat
            = [Some (mkcell 0 (Some 0%nat)); Some (mkcell 1 (Some 1%nat));
               Some (mkcell 0 (Some 0%nat)); None]
        | _ => False
        end.
Proof. vm_compute. repeat split. Qed.

(** Axioms used. *)
Print Assumptions C37_fix_spec.
Print Assumptions C37_emitted.
Print Assumptions C37_idempotent.
