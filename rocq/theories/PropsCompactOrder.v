(** C61: calls on a TCompactProtocol in the wrong order. *)
From Coq Require Import ZArith List Bool.
From Coq Require Import Init.Byte.
From Verif Require Import Base Bytes Utf8 Proto Compact CompactOrder CompactOrderFacts.
Import ListNotations.
Open Scope Z_scope.

(** A method called in a state it is not meant for raises AssertionError and
    changes nothing: no byte is read or written and the state stays.  Text that
    has no UTF-8 encoding is refused for that first. *)
Theorem C61_wrong_state : forall cf c s, ~ In (state (px s)) (allowed c) ->
  exists e, perform (compact cf) c s = (Raise e, s)
  /\ (e = EAssertion \/ exists t, c = WString t /\ utf8_encode t = None /\ e = EUnicodeEncode).
Proof.
  intros cf c s H. destruct (wrong_state cf c s H) as [E|(t & Ec & Et & E)].
  - exists EAssertion. auto.
  - exists EUnicodeEncode. split; [exact E|]. right. exists t. auto.
Qed.

(** Any calls whatever, in any order, on a new object: as long as none of them
    has raised, every end has matched the innermost struct or container still
    open, in kind and in direction, and each call stood where it may stand.
    The object's two stacks are empty exactly when all brackets are closed. *)
Theorem C61_nesting : forall cf cs inp0 out0 d a s',
  run (compact cf) cs (mkst c_init inp0 out0 d) = (Ok a, s') ->
  places [] cs = true
  /\ exists k, nest [] cs = Some k
     /\ (k = [] <-> structs (px s') = [] /\ containers (px s') = []).
Proof.
  intros cf cs inp0 out0 d a s' H.
  destruct (run_nest cf cs [] _ a s' H) as (Hp & k & Hn & Hf).
  { cbn. auto. }
  split; [exact Hp|]. exists k. split; [exact Hn|].
  destruct k as [|[| | |] k]; cbn [fits] in Hf.
  - destruct Hf as (-> & -> & _). split; auto.
  - destruct Hf as [_ Hf]. destruct (structs (px s')); [contradiction|].
    split; [discriminate|intros [H1 _]; discriminate].
  - destruct Hf as [_ Hf]. destruct (structs (px s')); [contradiction|].
    split; [discriminate|intros [H1 _]; discriminate].
  - destruct Hf as [_ Hf]. destruct (containers (px s')); [contradiction|].
    split; [discriminate|intros [_ H1]; discriminate].
  - destruct Hf as [_ Hf]. destruct (containers (px s')); [contradiction|].
    split; [discriminate|intros [_ H1]; discriminate].
Qed.

(** A message with a struct holding a list of structs, and the calls of it. *)
Definition order_ex : list call :=
  [WMessageBegin [97] 1 7; WStructBegin; WFieldBegin T_LIST 1; WListBegin T_STRUCT 1;
   WStructBegin; WFieldBegin T_BOOL 2; WBool true; WFieldEnd; WFieldStop; WStructEnd;
   WListEnd; WFieldEnd; WFieldStop; WStructEnd; WMessageEnd].
Example C61_nesting_ex :
  (let r := run (compact cdefault) order_ex (mkst c_init [] [] 0) in
   fst r = Ok tt /\ out (snd r) = [x82; x21; x07; x01; x61; x19; x1c; x21; x00; x00])
  /\ nest [] order_ex = Some [].
Proof. vm_compute. auto. Qed.

(** Ending the list where the struct in it should end is refused. *)
Example C61_wrong_ex :
  fst (run (compact cdefault) (firstn 9 order_ex ++ [WListEnd]) (mkst c_init [] [] 0))
    = Raise EAssertion.
Proof. vm_compute. reflexivity. Qed.

(** What the states do not see: a message ended in the middle of a field, a
    field written outside any struct, a stop byte in the middle of a list, and
    a list with fewer elements than announced; each is accepted (defect). *)
Theorem C61_unseen_fails : forall inp0 out0 d,
  Forall (fun cs => fst (run (compact cdefault) cs (mkst c_init inp0 out0 d)) = Ok tt)
    [ [WMessageBegin [97] 1 7; WStructBegin; WFieldBegin T_I32 1; WMessageEnd];
      [WMessageBegin [97] 1 7; WFieldEnd; WFieldBegin T_I32 1; WI32 5; WFieldEnd];
      [WStructBegin; WFieldBegin T_LIST 1; WListBegin T_I32 2; WFieldStop; WI32 5];
      [WStructBegin; WFieldBegin T_LIST 1; WListBegin T_I32 2; WListEnd; WFieldEnd;
       WFieldStop; WStructEnd] ].
Proof.
  intros inp0 out0 d.
  repeat (apply Forall_cons; [vm_compute; reflexivity|]). apply Forall_nil.
Qed.

(** Axioms used. *)
Print Assumptions C61_wrong_state.
Print Assumptions C61_nesting.
Print Assumptions C61_unseen_fails.
