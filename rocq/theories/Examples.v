(** Sample schemas and values used beside the theorems to show that their
    hypotheses can be met. *)
From Coq Require Import ZArith List Bool Lia.
From Coq Require Import Init.Byte.
From Verif Require Import Base Bytes Utf8 Proto Spec.
Import ListNotations.
Open Scope Z_scope.

Fixpoint nodupb (l : list Z) : bool :=
  match l with
  | [] => true
  | x :: r => negb (existsb (Z.eqb x) r) && nodupb r
  end.

Definition schema_okb (env : schema) : bool :=
  forallb (fun ds => nodupb (map f_id ds)
                     && forallb (fun d => between (-32768) 32767 (f_id d)) ds) env.

Lemma nodupb_ok l : nodupb l = true -> NoDup l.
Proof.
  induction l as [|x l IH]; intros H; [constructor|].
  cbn [nodupb] in H. apply andb_prop in H as [H1 H2]. constructor; [|auto].
  intros Hin. apply negb_true_iff in H1.
  assert (E : existsb (Z.eqb x) l = true).
  { apply existsb_exists. exists x. split; [assumption|apply Z.eqb_refl]. }
  congruence.
Qed.

Lemma schema_okb_ok env : schema_okb env = true -> schema_ok env.
Proof.
  intros H n ds E. unfold schema_okb in H. rewrite forallb_forall in H.
  specialize (H ds (nth_error_In _ _ E)). apply andb_prop in H as [H1 H2].
  split; [apply nodupb_ok; assumption|].
  rewrite forallb_forall in H2. exact H2.
Qed.

(** struct 0: a tree with a required value, a list of children (recursive) and
    a flag; struct 1: one field of every kind, two with defaults, ids out of
    order of size with a negative one and a gap. *)
Definition ex_env : schema :=
  [ [ mkfield 1 TI32 true None;
      mkfield 2 (TList (TStruct 0)) false None;
      mkfield 3 TBool false None ];
    [ mkfield (-3) TByte false None;
      mkfield 1 TBool false (Some (VBool true));
      mkfield 2 TI16 false None;
      mkfield 20 TI64 false (Some (VInt 7));
      mkfield 21 TDouble false None;
      mkfield 22 TString false None;
      mkfield 23 TBinary false None;
      mkfield 24 TUuid false None;
      mkfield 25 (TSet TI32) false None;
      mkfield 26 (TMap TString (TList TBool)) false None;
      mkfield 300 (TStruct 0) false None ] ].

Definition ex_tree : value :=
  VStruct 0 [Some (VInt 5);
             Some (VList [VStruct 0 [Some (VInt (-1)); None; Some (VBool false)];
                          VStruct 0 [Some (VInt 2147483647); None; None]]);
             Some (VBool true)].

Definition ex_uuid : list byte :=
  [x01;x02;x03;x04;x05;x06;x07;x08;x09;x0a;x0b;x0c;x0d;x0e;x0f;x10].

Definition ex_all : value :=
  VStruct 1 [Some (VInt (-128)); None; Some (VInt (-2)); None;
             Some (VDouble 4607182418800017408);
             Some (VStr [104; 233; 8364; 128512]);
             Some (VBin [x68; xc3; xa9]);
             Some (VUuid ex_uuid);
             Some (VSet [VInt 3; VInt (-4)]);
             Some (VMap [(VStr [97], VList [VBool true; VBool false]);
                         (VStr [], VList [])]);
             Some ex_tree].

(** The same program one version earlier: struct 1 lacks fields 22 to 26 and
    300, and has a new field 400; field 2 is now a string. *)
Definition ex_old : schema :=
  [ [ mkfield 1 TI32 true None ];
    [ mkfield (-3) TByte false None;
      mkfield 1 TBool false None;
      mkfield 2 TString false (Some (VStr [63]));
      mkfield 20 TI64 false None;
      mkfield 21 TDouble false None;
      mkfield 400 TI32 false (Some (VInt 9)) ] ].

Definition ex_rel (n m : nat) : bool := (n =? m)%nat && (n <? 2)%nat.

Lemma ex_env_ok : schema_ok ex_env.
Proof. apply schema_okb_ok. reflexivity. Qed.
Lemma ex_old_ok : schema_ok ex_old.
Proof. apply schema_okb_ok. reflexivity. Qed.
Lemma ex_closed : schema_closed ex_env = true.
Proof. reflexivity. Qed.
Lemma ex_all_wf : wf ex_env 100 100 (TStruct 1) ex_all = true.
Proof. reflexivity. Qed.
Lemma ex_all_depth : (sdepth ex_all <= 64)%nat.
Proof. vm_compute. lia. Qed.

Lemma ex_compat : compat_env ex_env ex_old ex_rel.
Proof.
  intros n m H. unfold ex_rel in H. apply andb_prop in H as [E H].
  apply Nat.eqb_eq in E. subst m. apply Nat.ltb_lt in H.
  destruct n as [|[|n]]; [| |lia]; eexists _, _;
    (split; [reflexivity|]); (split; [reflexivity|]);
    intros a b Ha Hb; cbn [In] in Ha, Hb;
    repeat (destruct Ha as [<-|Ha]; [repeat (destruct Hb as [<-|Hb];
      [cbn; intros; try reflexivity; try discriminate|]); contradiction|]);
    contradiction.
Qed.
