(** Reading lists of booleans, byte by byte. *)
From Coq Require Import ZArith List Bool Lia ZifyBool.
From Coq Require Import Init.Byte.
From Verif Require Import Base Bytes BytesFacts Utf8 Proto Laws Binary BinaryLaws
  Compact CompactFacts CompactLaws SpecCompact.
Import ListNotations.
Open Scope Z_scope.

(** A loop that turns each byte into one element. *)
Lemma repeat_bytes X (f : M X value) (g : byte -> value) (x : X) o d :
  (forall b tail, f (mkst x (b :: tail) o d) = (Ok (g b), mkst x tail o d)) ->
  forall bs fuel acc tail, (length bs <= fuel)%nat ->
  repeatM fuel (Z.of_nat (length bs)) (fun acc => v <- f ;; ret (acc ++ [v])) acc
    (mkst x (bs ++ tail) o d)
  = (Ok (acc ++ map g bs), mkst x tail o d).
Proof.
  intros Hf. induction bs as [|b bs IH]; intros fuel acc tail Hl.
  - destruct fuel; cbn; rewrite app_nil_r; reflexivity.
  - destruct fuel as [|fuel]; cbn [length] in Hl; [lia|].
    cbn [length repeatM map app].
    destruct (Z.of_nat (S (length bs)) <=? 0) eqn:E; [lia|].
    unfold bind at 1. unfold bind at 1. rewrite Hf. cbn [ret].
    replace (Z.of_nat (S (length bs)) - 1) with (Z.of_nat (length bs)) by lia.
    unfold ret at 1. rewrite IH by lia. rewrite <- app_assoc. reflexivity.
Qed.

Lemma read_one X (x : X) b tail o d :
  readAll 1 (mkst x (b :: tail) o d) = (Ok [b], mkst x tail o d).
Proof. exact (readAll_app X [b] tail x o d). Qed.

Lemma signed1 b : exists z, unpack_signed 1 [b] = z /\ (z =? 0) = (b2z b =? 0)
  /\ (z =? 1) = (b2z b =? 1).
Proof. eexists. split; [reflexivity|]. destruct b; split; reflexivity. Qed.

Lemma b_bool_byte b x tail o d :
  b_readBool (mkst x (b :: tail) o d) = (Ok (negb (b2z b =? 0)), mkst x tail o d).
Proof.
  unfold b_readBool, b_readByte, bind. rewrite read_one. unfold ret.
  destruct (signed1 b) as (z & -> & -> & _). destruct (b2z b =? 0); reflexivity.
Qed.

Lemma c_bool_byte b x tail o d : state x = CONTAINER_READ ->
  c_readBool (mkst x (b :: tail) o d) = (Ok (b2z b =? 1), mkst x tail o d).
Proof.
  intros Hx. unfold c_readBool, c_readByte_, get_px, bind. cbn [px]. rewrite Hx.
  rewrite read_one. unfold ret. destruct (signed1 b) as (z & -> & _ & E).
  change CT_TRUE with 1. rewrite E. reflexivity.
Qed.

(** The header of a compact list, whatever the state of the reader. *)
Lemma c_lbeg cf SL CL t n x tail o d : c_limits cf SL CL -> 0 <= n <= CL ->
  state x = VALUE_READ \/ state x = CONTAINER_READ ->
  c_readCollectionBegin cf (mkst x (sc_list (sc_type t) n ++ tail) o d)
  = (Ok (code t, n),
     mkst (mkcst CONTAINER_READ (last_fid x) (bool_fid x) (bool_value x) (structs x)
             (state x :: containers x)) tail o d).
Proof.
  intros Hlim Hn Hs. pose proof (sc_type_range t).
  destruct Hlim as (_ & Hc & _ & H2).
  assert (Lim : match c_container_length_limit cf with
                | Some l => n <= l | None => True end).
  { unfold lim_ok in H2. destruct (c_container_length_limit cf); [lia|exact I]. }
  unfold c_readCollectionBegin.
  erewrite bind_eq.
  2:{ unfold assert_state, get_px, bind, assert_, ret. cbn [px].
      destruct Hs as [-> | ->]; reflexivity. }
  unfold sc_list. destruct (n <=? 14) eqn:E; cbn [app].
  - erewrite bind_eq by (apply readUByte_ok; lia).
    rewrite shiftr_div by lia. change (2 ^ 4) with 16.
    replace ((16 * n + sc_type t) / 16) with n
      by (rewrite Z.add_comm, Z.mul_comm, Z.div_add, Z.div_small by lia; lia).
    erewrite bind_eq.
    2:{ apply getTType_ok. rewrite Z.add_comm, Z.mul_comm, Z.mod_add by lia.
        apply Z.mod_small. lia. }
    destruct (n =? 15) eqn:E15; [lia|].
    erewrite bind_eq by reflexivity.
    erewrite bind_eq by (apply check_length_ok; [lia|exact Lim]).
    reflexivity.
  - erewrite bind_eq by (apply readUByte_ok; lia).
    rewrite shiftr_div by lia. change (2 ^ 4) with 16.
    replace ((240 + sc_type t) / 16) with 15.
    2:{ symmetry. change 240 with (15 * 16).
        rewrite Z.add_comm, Z.div_add, Z.div_small by lia. lia. }
    erewrite bind_eq.
    2:{ apply getTType_ok. change 240 with (15 * 16).
        rewrite Z.add_comm, Z.mod_add by lia. apply Z.mod_small. lia. }
    change (15 =? 15) with true. cbv iota.
    erewrite bind_eq by (apply readSize_ok; lia).
    erewrite bind_eq by (apply check_length_ok; [lia|exact Lim]).
    reflexivity.
Qed.
