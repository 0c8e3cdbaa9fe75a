(** The message layer of TJSONProtocol (lib/py/src/protocol/TJSONProtocol.py,
    modelled in Json.v) satisfies the laws of MsgLaws.v: an array of the version,
    the name, the type, the sequence id and the struct. *)
From Coq Require Import ZArith List Bool Lia.
From Coq Require Import Init.Byte.
From Coq Require Import ZifyBool ZifyNat ZifyN.
From Verif Require Import Base Bytes BytesFacts Utf8 Utf8Facts Proto Spec Laws RoundTrip
  StructFacts BinaryLaws JsonText JsonTextFacts Json JsonLaws SpecJson JsonFacts MsgLaws.
Import ListNotations.
Open Scope Z_scope.

(** What is ahead of the struct in a message. *)
Definition sj_header (name : list Z) (type seqid : Z) : list byte :=
  [x5b] ++ ascii (int_text 1) ++ [x2c] ++ sj_string name ++ [x2c] ++ ascii (int_text type)
  ++ [x2c] ++ ascii (int_text seqid).

Definition j_msg (name : list Z) (type seqid : Z) (env : schema) (n : nat) (v : value)
  : list byte :=
  sj_header name type seqid ++ [x2c] ++ sj_value env false (TStruct n) v ++ [x5d].

(** Positions: in the array in front of its first element, and further on. *)
Definition c_first : list ctx := [CList true; CBase].
Definition c_rest : list ctx := [CList false; CBase].

Lemma j_write_begin name nb type seqid x i o d : utf8_encode name = Some nb ->
  exists x', j_writeMessageBegin name type seqid (mkst x i o d)
    = (Ok tt, mkst x' i (o ++ sj_header name type seqid) d) /\ j_wrep c_rest x'.
Proof.
  intros Hn.
  assert (W1 : WJ [CBase] c_first [LBRACKET] writeJSONArrayStart) by exact (WJ_arr [CBase]).
  assert (W2 : WJ c_first c_rest (ascii (int_text 1)) (writeJSONNumber (int_text J_VERSION)))
    by exact (WJ_number c_first (int_text 1)).
  assert (W3 : WJ c_rest c_rest (x2c :: sj_string name) (writeJSONString name)).
  { rewrite <- (jstr_spec name nb Hn). exact (WJ_string c_rest name nb Hn). }
  assert (W4 : WJ c_rest c_rest (x2c :: ascii (int_text type)) (writeJSONNumber (int_text type)))
    by exact (WJ_number c_rest (int_text type)).
  assert (W5 : WJ c_rest c_rest (x2c :: ascii (int_text seqid))
    (writeJSONNumber (int_text seqid))) by exact (WJ_number c_rest (int_text seqid)).
  destruct (WJ_bind _ _ _ _ _ _ _ W1 (WJ_bind _ _ _ _ _ _ _ W2 (WJ_bind _ _ _ _ _ _ _ W3
    (WJ_bind _ _ _ _ _ _ _ W4 W5))) (mkj [CBase] (ahead x)) i o d eq_refl) as (x' & E & R).
  exists x'. split; [|exact R]. exact E.
Qed.

Lemma j_write_body limit SL CL env n v x i o : schema_ok env ->
  CL <= 9223372036854775807 -> wfd finite env SL CL (TStruct n) v = true ->
  (sdepth v <= 64)%nat -> j_wrep c_rest x ->
  exists x', write_struct (json limit) env n v (mkst x i o 0)
    = (Ok tt, mkst x' i (o ++ x2c :: sj_value env false (TStruct n) v) 0) /\ j_wrep c_rest x'.
Proof.
  intros Hok HC Hwf Hd Hx. unfold write_struct.
  rewrite (write_value_same _ _ env v (json_same_writers limit None)).
  set (L := json_laws None SL CL (no_limits SL CL HC)).
  destruct (write_enc L env Hok v 0 (TStruct n) c_rest ltac:(lia) I Hwf ltac:(lia) x i o Hx)
    as (x' & E & Hr).
  exists x'. split; [|exact Hr]. rewrite E. unfold L.
  rewrite (enc_json_spec None SL CL (no_limits SL CL HC)) by exact Hwf. reflexivity.
Qed.

(** Whatever was read before, and whatever the reader had looked ahead at. *)
Lemma j_read_begin limit SL CL name type seqid tail x o d : j_limits limit SL CL ->
  name_ok SL name -> mtype_ok type -> seq_ok seqid -> j_okT tail ->
  exists x' i', j_readMessageBegin limit (mkst x (sj_header name type seqid ++ tail) o d)
    = (Ok (name, type, seqid), mkst x' i' o d) /\ j_rrep c_rest x' i' tail.
Proof.
  intros Hl Hn Ht Hq HT.
  assert (Hnb : exists nb, utf8_encode name = Some nb).
  { unfold name_ok in Hn. cbn [base_ok base_okd] in Hn.
    destruct (utf8_encode name) as [nb|]; [eauto|discriminate]. }
  destruct Hnb as [nb Hnb].
  assert (R1 : RJ anyT [CBase] c_first [LBRACKET] readJSONArrayStart tt)
    by exact (RJ_arr [CBase]).
  assert (Ri : forall c z, esc (j_nxt c) = false ->
    -9223372036854775808 <= z <= 9223372036854775807 ->
    RJ j_okT c (j_nxt c) (sep c ++ ascii (int_text z)) (readJSONInteger limit) z).
  { intros c z Hc Hz.
    pose proof (RJ_integer limit c z ltac:(apply (lim40 limit SL CL Hl);
      pose proof (int_text_len z); lia)) as R. unfold num in R. rewrite Hc in R. exact R. }
  pose proof (Ri c_first 1 eq_refl ltac:(lia)) as R2.
  assert (R3 : RJ anyT c_rest c_rest (x2c :: sj_string name) (readJSONString limit false) name).
  { rewrite <- (jstr_spec name nb Hnb). apply (RJ_string limit false c_rest name nb Hnb).
    unfold name_ok in Hn. cbn [base_ok base_okd] in Hn. rewrite Hnb in Hn.
    destruct (escape_encodes name nb Hnb) as (e & Ee & He). unfold etext. rewrite Ee.
    unfold len_le in Hn. eapply (lim_le limit SL CL Hl _ (2 * SL)); [lia|apply Hl]. }
  assert (Hq' := between_spec _ _ _ Hq).
  pose proof (Ri c_rest type eq_refl ltac:(unfold mtype_ok in Ht; lia)) as R4.
  pose proof (Ri c_rest seqid eq_refl ltac:(lia)) as R5.
  change (sep c_first ++ ascii (int_text 1)) with (ascii (int_text 1)) in R2.
  change (j_nxt c_first) with c_rest in R2.
  change (sep c_rest ++ ascii (int_text type)) with (x2c :: ascii (int_text type)) in R4.
  change (sep c_rest ++ ascii (int_text seqid)) with (x2c :: ascii (int_text seqid)) in R5.
  change (j_nxt c_rest) with c_rest in R4, R5.
  assert (R : RJ j_okT [CBase] c_rest (sj_header name type seqid)
    (readJSONArrayStart ;;; v <- readJSONInteger limit ;;
     if negb (v =? J_VERSION) then raise (EProtocol TP_BAD_VERSION)
     else name <- readJSONString limit false ;; type <- readJSONInteger limit ;;
          seqid <- readJSONInteger limit ;; ret (name, type, seqid))
    (name, type, seqid)).
  { assert (Cm : forall l t, j_okT ((x2c :: l) ++ t)).
    { intros l t. exists x2c, (l ++ t). split; reflexivity. }
    apply (RJ_eq _ _ _ ([LBRACKET] ++ ascii (int_text 1) ++ (x2c :: sj_string name)
      ++ (x2c :: ascii (int_text type)) ++ (x2c :: ascii (int_text seqid)))); [|reflexivity].
    eapply RJ_bindA; [exact R1|].
    eapply RJ_bind; [exact R2| |].
    { intros t _. rewrite <- app_assoc. apply Cm. }
    change (negb (1 =? J_VERSION)) with false. cbv iota.
    eapply RJ_bindA; [exact R3|].
    eapply RJ_bind; [exact R4| |].
    { intros t _. apply Cm. }
    exact (RJ_map _ _ _ _ _ (fun q => (name, type, q)) seqid R5). }
  destruct (R tail HT j_init (sj_header name type seqid ++ tail) o d (conj eq_refl eq_refl))
    as (x' & i' & E & R').
  exists x', i'. split; [exact E|exact R'].
Qed.

Lemma j_read_end tail x i o d : j_rrep c_rest x i (x5d :: tail) ->
  exists x', j_readMessageEnd (mkst x i o d) = (Ok tt, mkst x' tail o d).
Proof.
  intros Hx. destruct (rd_next c_rest x i x5d tail o d Hx) as (x' & i' & E & [R1 R2] & A).
  rewrite A in R2. subst i'. exists (mkj [CBase] (ahead x')).
  unfold j_readMessageEnd, readJSONArrayEnd, readJSONSyntaxChar, bind at 1, bind at 1.
  rewrite E, is_byte_same. unfold popContext, get_stack, set_stack, get_px, set_px, bind, ret.
  cbn [px]. rewrite R1. reflexivity.
Qed.

Lemma all_bin_any v : all_bin (fun _ => true) v = true.
Proof.
  induction v using value_rect'; try reflexivity; cbn [all_bin];
    apply forallb_forall; rewrite Forall_forall in H.
  - exact H.
  - exact H.
  - intros [k y] Hin. destruct (H _ Hin) as [H1 H2]. cbn in H1, H2. rewrite H1, H2. reflexivity.
  - intros [y|] Hin; [exact (H _ Hin)|reflexivity].
Qed.

Definition json_mlaws limit SL CL (H : j_limits limit SL CL) : mlaws (json limit) SL CL.
Proof.
  refine {|
    ml_idle := fun _ => True; ml_wB := j_wrep c_rest; ml_wA := j_wrep c_rest;
    ml_rB := j_rrep c_rest; ml_rA := j_rrep c_rest;
    ml_skbin := fun _ => true; ml_dok := finite; ml_T := j_okT;
    ml_hdr := sj_header;
    ml_body := fun env n v => x2c :: sj_value env false (TStruct n) v;
    ml_end := [x5d] |}.
  - intros name type seqid x i o d _ Hn _ _.
    unfold name_ok in Hn. cbn [base_ok base_okd] in Hn.
    destruct (utf8_encode name) as [nb|] eqn:E; [|discriminate].
    exact (j_write_begin name nb type seqid x i o d E).
  - intros env n v x i o Hx Hok Hwf Hd.
    exact (j_write_body limit SL CL env n v x i o Hok (proj1 H) Hwf Hd Hx).
  - intros x i o d Hx. destruct (WJ_arr_end [CBase] (CList false) x i o d Hx) as (x' & E & _).
    exists x'. split; [exact E|exact I].
  - intros name type seqid tail x o d _ Hn Ht Hq HT.
    exact (j_read_begin limit SL CL name type seqid tail x o d H Hn Ht Hq HT).
  - intros envW envR R n m v tail x i o F Hx HW HR HC Hnm Hwf Hd Hdr HF.
    set (L := json_laws limit SL CL H).
    pose proof (enc_json_spec limit SL CL H envW v c_rest (TStruct n) Hwf) as Ee.
    change (sep c_rest ++ sj_value envW (esc (j_nxt c_rest)) (TStruct n) v)
      with (x2c :: sj_value envW false (TStruct n) v) in Ee. rewrite <- Ee in *.
    exact (read_enc L envW envR R HW HR HC F v 0 (TStruct n) (TStruct m) c_rest DFUEL
      ltac:(lia) Hnm I Hwf ltac:(lia) ltac:(unfold DFUEL; lia) HF Hdr tail I x i o Hx).
  - intros env n v tail x i o d F Hx Hok Hwf Hd Hb HF.
    set (L := json_laws limit SL CL H).
    pose proof (enc_json_spec limit SL CL H env v c_rest (TStruct n) Hwf) as Ee.
    change (sep c_rest ++ sj_value env (esc (j_nxt c_rest)) (TStruct n) v)
      with (x2c :: sj_value env false (TStruct n) v) in Ee. rewrite <- Ee in *.
    assert (Hr : rpos L c_rest (TStruct n) v) by (destruct v; exact I).
    exact (skip_enc L env Hok F v d SKIP_DEPTH (TStruct n) c_rest Hr Hwf Hd HF Hb tail I x i o Hx).
  - intros tail x i o d Hx. destruct (j_read_end tail x i o d Hx) as (x' & E).
    exists x'. split; [exact E|exact I].
  - intros env n v tail. exists x2c, (sj_value env false (TStruct n) v ++ tail).
    split; reflexivity.
Defined.

Lemma j_msg_eq limit SL CL H name type seqid env n v :
  message (json_mlaws limit SL CL H) name type seqid env n v = j_msg name type seqid env n v.
Proof. reflexivity. Qed.
