(** C57: the JSON protocols write JSON. *)
From Coq Require Import ZArith List Bool Lia.
From Coq Require Import Init.Byte.
From Coq Require Import ZifyBool ZifyNat ZifyN.
From Verif Require Import SpecJsonDoc Base Bytes BytesFacts Utf8 Utf8Facts Proto Spec Laws RoundTrip
  StructFacts Compact BinaryLaws JsonText JsonTextFacts Json JsonLaws SpecJson JsonFacts
 SimpleJson JsonDocFacts SimpleJsonFacts JsonDocNames JsonScan Examples.
Import ListNotations.
Open Scope Z_scope.

(** * TJSONProtocol *)

(** What is written is the UTF-8 of a text that stands for the document
    [tj_doc], and no member name occurs twice in an object.  Doubles are finite
    and strings have no control character but \b \t \n \f \r: see the
    refutations below. *)
Theorem C57_json_document : forall limit SL CL env n v, schema_ok env ->
  CL <= 9223372036854775807 ->
  wfd finite env SL CL (TStruct n) v = true -> (sdepth v <= 64)%nat -> clean v = true ->
  exists bs text, serialize (json limit) j_init env n v = Ok bs
    /\ utf8_decode bs = Some text
    /\ json_text text (tj_doc env (TStruct n) v)
    /\ unique_names (tj_doc env (TStruct n) v).
Proof.
  intros limit SL CL env n v Hok HC Hwf Hd Hc.
  exists (sj_value env false (TStruct n) v), (json_print (tj_doc env (TStruct n) v)).
  split; [exact (json_serialize limit SL CL env n v Hok HC Hwf Hd)|].
  split; [apply utf8_decode_encode, (tj_enc env SL CL v (TStruct n) Hwf)|].
  split; [apply print_ok, (tj_ok env SL CL v (TStruct n) Hwf Hc)|].
  exact (tj_unique env SL CL Hok v (TStruct n) Hwf).
Qed.

(** A whole message is an array of the version, the name, the message type, the
    sequence id and the struct of the arguments or of the result. *)
Definition tj_message (env : schema) (name : list Z) (type seqid : Z) (n : nat) (v : value)
  : SpecJsonDoc.json :=
  JArr [JNum (int_text 1); JStr name; JNum (int_text type); JNum (int_text seqid);
        tj_doc env (TStruct n) v].

Theorem C57_json_message : forall limit SL CL env n v name nb type seqid x i o,
  schema_ok env -> CL <= 9223372036854775807 ->
  wfd finite env SL CL (TStruct n) v = true -> (sdepth v <= 64)%nat ->
  utf8_encode name = Some nb ->
  exists x' bs text,
    (writeMessageBegin (json limit) name type seqid ;;;
     write_struct (json limit) env n v ;;;
     writeMessageEnd (json limit)) (mkst x i o 0) = (Ok tt, mkst x' i (o ++ bs) 0)
    /\ stack x' = [CBase]
    /\ utf8_decode bs = Some text
    /\ (clean v = true -> clean_string name = true ->
        json_text text (tj_message env name type seqid n v)).
Proof.
  intros limit SL CL env n v name nb type seqid x i o Hok HC Hwf Hd Hn.
  set (b := sj_value env false (TStruct n) v).
  set (c1 := [CList true; CBase]). set (c2 := [CList false; CBase]).
  assert (W1 : WJ [CBase] c1 [LBRACKET] writeJSONArrayStart) by exact (WJ_arr [CBase]).
  assert (W2 : WJ c1 c2 (ascii (int_text 1)) (writeJSONNumber (int_text J_VERSION)))
    by exact (WJ_number c1 (int_text 1)).
  assert (W3 : WJ c2 c2 (x2c :: sj_string name) (writeJSONString name)).
  { rewrite <- (jstr_spec name nb Hn). exact (WJ_string c2 name nb Hn). }
  assert (W4 : WJ c2 c2 (x2c :: ascii (int_text type)) (writeJSONNumber (int_text type)))
    by exact (WJ_number c2 (int_text type)).
  assert (W5 : WJ c2 c2 (x2c :: ascii (int_text seqid)) (writeJSONNumber (int_text seqid)))
    by exact (WJ_number c2 (int_text seqid)).
  assert (W6 : WrD j_wrep 0 c2 c2 (x2c :: b) (write_struct (json limit) env n v)).
  { intros y ii oo Hy. unfold write_struct.
    rewrite (write_value_same _ _ env v (json_same_writers limit None)).
    set (L := json_laws None SL CL (no_limits SL CL HC)).
    destruct (write_enc L env Hok v 0 (TStruct n) c2 ltac:(lia) I Hwf ltac:(lia) y ii oo Hy)
      as (y' & E & Hr).
    exists y'. split; [|exact Hr]. rewrite E. unfold L.
    rewrite (enc_json_spec None SL CL (no_limits SL CL HC)) by exact Hwf. reflexivity. }
  assert (W7 : WJ c2 [CBase] [RBRACKET] writeJSONArrayEnd) by exact (WJ_arr_end [CBase] _).
  pose (bs := array [sj_num false (int_text 1); sj_string name; sj_num false (int_text type);
                     sj_num false (int_text seqid); b]).
  assert (W : WrD j_wrep 0 [CBase] [CBase] bs
    (writeJSONArrayStart ;;; writeJSONNumber (int_text J_VERSION) ;;;
     writeJSONString name ;;; writeJSONNumber (int_text type) ;;;
     writeJSONNumber (int_text seqid) ;;; write_struct (json limit) env n v ;;;
     writeJSONArrayEnd)).
  { apply WD_eq with (b := [LBRACKET] ++ ascii (int_text 1) ++ (x2c :: sj_string name)
      ++ (x2c :: ascii (int_text type)) ++ (x2c :: ascii (int_text seqid)) ++ (x2c :: b)
      ++ [RBRACKET]).
    { unfold bs, array. rewrite join_cons. cbn [map concat sj_num].
      repeat first [rewrite <- app_assoc | progress cbn [app]]. reflexivity. }
    repeat (eapply Wr_bind; [first [exact W6|apply Wr_D; first [exact W1|exact W2|exact W3|
      exact W4|exact W5]]|]).
    apply Wr_D. exact W7. }
  destruct (W (mkj [CBase] (ahead x)) i o eq_refl) as (x' & E & R).
  exists x', bs, (json_print (tj_message env name type seqid n v)).
  split.
  { rewrite <- E. cbn [json writeMessageBegin writeMessageEnd].
    unfold j_writeMessageBegin, j_writeMessageEnd, resetWriteContext.
    assert (S0 : set_stack [CBase] (mkst x i o 0) = (Ok tt, mkst (mkj [CBase] (ahead x)) i o 0))
      by reflexivity.
    unfold bind. rewrite S0.
    repeat match goal with
           | |- context [let (_, _) := ?m ?s in _] => destruct (m s) as [[[]|?|] ?]
           end; reflexivity. }
  split; [exact R|]. split.
  - apply utf8_decode_encode. unfold tj_message. cbn [json_print]. apply enc8_arr.
    cbn [map json_print]. repeat constructor; try (apply enc8_plain, int_plain).
    + eapply enc8_string, Hn.
    + exact (tj_enc env SL CL v (TStruct n) Hwf).
  - intros Hc Hcn. apply print_ok. cbn [tj_message doc_ok fold_right].
    split; [apply int_number|]. split; [eapply string_ok; eassumption|].
    split; [apply int_number|]. split; [apply int_number|].
    split; [exact (tj_ok env SL CL v (TStruct n) Hwf Hc)|exact I].
Qed.

(** * TSimpleJSONProtocol *)

(** Likewise, for any way of writing doubles as JSON numbers ([D] are the doubles
    it does so for) and any field names. *)
Theorem C57_simple_document : forall dtext D names env SL CL n v,
  (forall d, D d = true -> json_number (dtext d)) ->
  (forall m i, exists b, utf8_encode (names m i) = Some b) ->
  (forall m i, clean_string (names m i) = true) ->
  wfd D env SL CL (TStruct n) v = true -> (sdepth v <= 64)%nat -> clean v = true ->
  exists bs text, ss_serialize dtext names env n v = Ok bs
    /\ utf8_decode bs = Some text
    /\ json_text text (ss_doc dtext names env (TStruct n) v).
Proof.
  intros dtext D names env SL CL n v Hdbl Hn Hcn Hwf Hd Hc.
  destruct (ss_wr dtext D Hdbl names Hn env SL CL v (TStruct n) Hwf) as (b & E & W).
  destruct (W 0 [CBase] eq_refl ltac:(lia) ltac:(lia) j_init [] [] eq_refl) as (x' & Ex & _).
  exists b, (json_print (ss_doc dtext names env (TStruct n) v)).
  split; [unfold ss_serialize; rewrite Ex; reflexivity|].
  split; [apply utf8_decode_encode, E|].
  apply print_ok, (ss_ok dtext D Hdbl names Hn env SL CL v Hcn (TStruct n) Hwf Hc).
Qed.

(** Member names are unique if field names and the texts of doubles are. *)
Theorem C57_simple_unique : forall dtext D names env SL CL n v,
  (forall d d', 0 <= d < 2 ^ 64 -> 0 <= d' < 2 ^ 64 -> D d = true -> D d' = true ->
     dtext d = dtext d' -> d = d') ->
  (forall d, D d = true -> dbl_nan d = false) ->
  (forall m i j, names m i = names m j -> i = j) ->
  wfd D env SL CL (TStruct n) v = true ->
  unique_names (ss_doc dtext names env (TStruct n) v).
Proof.
  exact (fun dtext D names env SL CL n v H1 H2 H3 =>
    ss_unique dtext D H1 H2 names H3 env SL CL v (TStruct n)).
Qed.

(** A message is its struct and nothing else: no name, type or sequence id; and
    whatever was left open by an earlier failure is forgotten. *)
Theorem C57_simple_message : forall dtext D names env SL CL n v x i o,
  (forall d, D d = true -> json_number (dtext d)) ->
  (forall m i, exists b, utf8_encode (names m i) = Some b) ->
  wfd D env SL CL (TStruct n) v = true -> (sdepth v <= 64)%nat ->
  exists x' bs, ss_message dtext names env n v (mkst x i o 0)
                = (Ok tt, mkst x' i (o ++ bs) 0)
    /\ stack x' = [CBase] /\ ss_serialize dtext names env n v = Ok bs.
Proof.
  intros dtext D names env SL CL n v x i o Hdbl Hn Hwf Hd.
  destruct (ss_wr dtext D Hdbl names Hn env SL CL v (TStruct n) Hwf) as (b & E & W).
  destruct (W 0 [CBase] eq_refl ltac:(lia) ltac:(lia) j_init [] [] eq_refl) as (x1 & E1 & _).
  destruct (W 0 [CBase] eq_refl ltac:(lia) ltac:(lia) (mkj [CBase] (ahead x)) i o eq_refl)
    as (x2 & E2 & R2).
  exists x2, b. split; [exact E2|]. split; [exact R2|].
  unfold ss_serialize. rewrite E1. reflexivity.
Qed.

(** * Not JSON *)

Definition not_json (bs : list byte) : Prop :=
  forall text j, utf8_decode bs = Some text -> ~ json_text text j.

Lemma scan_not_json bs text : utf8_decode bs = Some text -> scan (Out 0) text = None ->
  not_json bs.
Proof.
  intros E S text' j E'. replace text' with text by congruence.
  apply scan_refutes, S.
Qed.

(** An infinite double: [inf] is no JSON (TJSONProtocol.py 580-584, 680-681). *)
Theorem C57_infinity_refuted : exists env v bs,
  wf env 100 100 (TStruct 0) v = true /\ clean v = true
  /\ serialize (json None) j_init env 0 v = Ok bs /\ not_json bs.
Proof.
  exists [[mkfield 1 TDouble false None]], (VStruct 0 [Some (VDouble 9218868437227405312)]).
  eexists. split; [reflexivity|]. split; [reflexivity|]. split; [vm_compute; reflexivity|].
  eapply scan_not_json; vm_compute; reflexivity.
Qed.

(** A control character in a string: it is written as it is, by both protocols
    (writeJSONString, TJSONProtocol.py 213-220). *)
Theorem C57_control_refuted : exists env v bs bs',
  wfd finite env 100 100 (TStruct 0) v = true
  /\ serialize (json None) j_init env 0 v = Ok bs /\ not_json bs
  /\ ss_serialize dbl_text (fun _ i => [97 + Z.of_nat i]) env 0 v = Ok bs' /\ not_json bs'.
Proof.
  exists [[mkfield 1 TString false None]], (VStruct 0 [Some (VStr [97; 1])]).
  eexists. eexists. split; [reflexivity|]. split; [vm_compute; reflexivity|].
  split; [eapply scan_not_json; vm_compute; reflexivity|].
  split; [vm_compute; reflexivity|]. eapply scan_not_json; vm_compute; reflexivity.
Qed.

(** A map whose keys are structs (possible with frozen structs): the key
    is written as an object where JSON has a string. *)
Theorem C57_struct_key_refuted : exists env v bs bs',
  serialize (json None) j_init env 1 v = Ok bs /\ not_json bs
  /\ ss_serialize dbl_text (fun _ i => [97 + Z.of_nat i]) env 1 v = Ok bs' /\ not_json bs'.
Proof.
  exists [[mkfield 1 TI32 false None]; [mkfield 1 (TMap (TStruct 0) TI32) false None]],
    (VStruct 1 [Some (VMap [(VStruct 0 [Some (VInt 5)], VInt 7)])]).
  eexists. eexists. split; [vm_compute; reflexivity|].
  split; [eapply scan_not_json; vm_compute; reflexivity|].
  split; [vm_compute; reflexivity|]. eapply scan_not_json; vm_compute; reflexivity.
Qed.

(** * Cases *)

Example C57_ex :
  wfd finite ex_env 100 100 (TStruct 1) ex_all = true /\ clean ex_all = true
  /\ (sdepth ex_all <= 64)%nat
  (* {"1":{"i32":258}} and {"a":258} *)
  /\ json_print (tj_doc [[mkfield 1 TI32 false None]] (TStruct 0)
       (VStruct 0 [Some (VInt 258)]))
     = [123; 34; 49; 34; 58; 123; 34; 105; 51; 50; 34; 58; 50; 53; 56; 125; 125]
  /\ json_print (ss_doc dbl_text (fun _ i => [97 + Z.of_nat i]) [[mkfield 1 TI32 false None]]
       (TStruct 0) (VStruct 0 [Some (VInt 258)]))
     = [123; 34; 97; 34; 58; 50; 53; 56; 125]
  /\ json_text [123; 32; 34; 97; 34; 58; 91; 49; 44; 110; 117; 108; 108; 93; 125]
       (JObj [([97], JArr [JNum [49]; JNull])]).
Proof.
  split; [reflexivity|]. split; [reflexivity|]. split; [cbn; lia|].
  split; [reflexivity|]. split; [reflexivity|].
  apply (jt_obj [32; 34; 97; 34; 58; 91; 49; 44; 110; 117; 108; 108; 93]).
  apply (jm_one [32] [34; 97; 34] [97] []).
  - intros c [<-|[]]. auto.
  - apply (print_string_ok [97]). split; [repeat constructor|reflexivity].
  - apply ws_nil.
  - apply (jt_arr [49; 44; 110; 117; 108; 108]).
    apply (je_cons [49] (JNum [49]) [110; 117; 108; 108]).
    + constructor. exact (int_number 1).
    + apply je_one. constructor.
Qed.

(** The hypotheses on field names and doubles can be met. *)
Definition ex_D (d : Z) : bool := between 0 18446744073709551615 d && finite d.
Definition ex_names (_ i : nat) : list Z := 102 :: int_text (Z.of_nat i).

Example C57_simple_ex :
  (exists bs text, ss_serialize dbl_text ex_names ex_env 1 ex_all = Ok bs
    /\ utf8_decode bs = Some text
    /\ json_text text (ss_doc dbl_text ex_names ex_env (TStruct 1) ex_all))
  /\ unique_names (ss_doc dbl_text ex_names ex_env (TStruct 1) ex_all).
Proof.
  assert (P : forall i, forallb plain_char (102 :: int_text (Z.of_nat i)) = true).
  { intros i. cbn [forallb]. rewrite int_plain. reflexivity. }
  assert (R : forall d, ex_D d = true -> 0 <= d < 2 ^ 64 /\ finite d = true).
  { intros d H. apply andb_prop in H as [H F]. split; [|exact F].
    apply andb_prop in H as [H1 H2]. apply Z.leb_le in H1, H2.
    change (2 ^ 64) with 18446744073709551616. clear F. lia. }
  split.
  - apply (C57_simple_document dbl_text ex_D ex_names ex_env 100 100).
    + intros d H. apply R in H as [H F]. apply double_number; assumption.
    + intros m i. eexists. apply enc8_plain, P.
    + intros m i. apply (plain_ok _ (P i)).
    + reflexivity.
    + cbn; lia.
    + reflexivity.
  - apply (C57_simple_unique dbl_text ex_D ex_names ex_env 100 100).
    + intros d d' _ _ H H'. apply R in H as [H F]. apply R in H' as [H' F'].
      apply finite_inj; assumption.
    + intros d H. apply R in H as [H F]. apply finite_not_nan; assumption.
    + intros m i j H. unfold ex_names in H. injection H as H.
      apply (f_equal py_int) in H. rewrite !py_int_text in H. injection H as H. lia.
    + reflexivity.
Qed.

(** Axioms used. *)
Print Assumptions C57_json_document.
Print Assumptions C57_json_message.
Print Assumptions C57_simple_document.
Print Assumptions C57_simple_unique.
Print Assumptions C57_simple_message.
Print Assumptions C57_infinity_refuted.
Print Assumptions C57_control_refuted.
Print Assumptions C57_struct_key_refuted.
