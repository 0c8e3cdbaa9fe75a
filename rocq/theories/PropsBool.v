(** C56: which bytes are read as true. *)
From Coq Require Import ZArith List Bool Lia ZifyBool.
From Coq Require Import Init.Byte.
From Verif Require Import Base Bytes BytesFacts Utf8 Proto Laws Binary BinaryLaws
  Compact CompactFacts CompactLaws SpecCompact BoolFacts.
Import ListNotations.
Open Scope Z_scope.

(** * C56 *)

(** TBinaryProtocol: a list<bool> whose elements are any bytes whatever; zero is
    false and every other byte true. *)
Theorem C56_binary : forall cf SL CL rs fuel bs tail o d,
  b_limits cf SL CL -> Z.of_nat (length bs) <= CL -> (length bs <= fuel)%nat ->
  read_ty (binary cf) rs fuel (TList TBool)
    (mkst tt (x02 :: be_bytes 4 (Z.of_nat (length bs)) ++ bs ++ tail) o d)
  = (Ok (VList (map (fun b => VBool (negb (b2z b =? 0))) bs)), mkst tt tail o d).
Proof.
  intros cf SL CL rs fuel bs tail o d HL Hn Hf.
  cbn [read_ty]. cbn [binary readListBegin readListEnd]. unfold bind at 1.
  change (x02 :: be_bytes 4 (Z.of_nat (length bs)) ++ bs ++ tail)
    with ((be_bytes 1 (code TBool) ++ be_bytes 4 (Z.of_nat (length bs))) ++ bs ++ tail).
  unfold b_readListBegin.
  rewrite (br_lbeg cf SL CL HL TBool (Z.of_nat (length bs)) tt (bs ++ tail) o d) by lia.
  unfold bind at 1.
  rewrite (repeat_bytes unit _ (fun b => VBool (negb (b2z b =? 0))) tt o d).
  - reflexivity.
  - intros b t. cbn [read_base binary readBool]. unfold bind. rewrite b_bool_byte.
    reflexivity.
  - exact Hf.
Qed.

(** TCompactProtocol: one is true and every other byte false. *)
Theorem C56_compact : forall cf SL CL rs fuel bs x tail o d,
  c_limits cf SL CL -> Z.of_nat (length bs) <= CL -> (length bs <= fuel)%nat ->
  state x = VALUE_READ \/ state x = CONTAINER_READ ->
  read_ty (compact cf) rs fuel (TList TBool)
    (mkst x (sc_list 1 (Z.of_nat (length bs)) ++ bs ++ tail) o d)
  = (Ok (VList (map (fun b => VBool (b2z b =? 1)) bs)), mkst x tail o d).
Proof.
  intros cf SL CL rs fuel bs x tail o d HL Hn Hf Hx.
  cbn [read_ty]. cbn [compact readListBegin readListEnd]. unfold bind at 1.
  change 1 with (sc_type TBool) at 1.
  rewrite (c_lbeg cf SL CL TBool _ x (bs ++ tail) o d HL) by (assumption || lia).
  unfold bind at 1.
  rewrite (repeat_bytes cst _ (fun b => VBool (b2z b =? 1))).
  - destruct x. reflexivity.
  - intros b t. cbn [read_base compact readBool]. unfold bind.
    rewrite c_bool_byte by reflexivity. reflexivity.
  - exact Hf.
Qed.

(** The two protocols disagree on the bytes that neither of them writes. *)
Example C56_ex :
  fst (read_ty (binary (mkbconf true true None None)) (fun _ => raise EAttributeError) 9
         (TList TBool) (mkst tt [x02; x00; x00; x00; x04; x00; x01; x02; xff] [] 0))
  = Ok (VList [VBool false; VBool true; VBool true; VBool true])
  /\ fst (read_ty (compact (mkcconf None None)) (fun _ => raise EAttributeError) 9
            (TList TBool)
            (mkst (mkcst VALUE_READ 0 None None [] []) [x41; x00; x01; x02; xff] [] 0))
  = Ok (VList [VBool false; VBool true; VBool false; VBool false]).
Proof. split; vm_compute; reflexivity. Qed.

(** Axioms used. *)
Print Assumptions C56_binary.
Print Assumptions C56_compact.
