(** Proofs about TZlibTransport. *)
From Coq Require Import ZArith List Bool Lia.
From Coq Require Import Init.Byte.
From Coq Require Import ZifyBool ZifyNat ZifyN.
From Verif Require Import Base Bytes Transport TransportFacts Zlib.
Import ListNotations.
Open Scope Z_scope.

(** What Python documents of [decompress(data, max_length)]: no more than
    [max_length] bytes when it is not zero; everything, with nothing left in
    unconsumed_tail, when it is zero; ValueError when it is negative. *)
Definition limits {D} (decompress : list byte -> Z -> SM D (list byte))
    (tail : D -> list byte) : Prop :=
  forall b m d,
  (m < 0 -> decompress b m d = (Raise EValueError, d)) /\
  match decompress b m d with
  | (Ok o, d') => (0 < m -> Z.of_nat (length o) <= m) /\ (m = 0 -> tail d' = [])
  | (Raise _, _) => True
  | (Diverge, _) => False
  end.

(** What is needed of zlib for data to come back.  [inflate c] is what the
    compressed bytes [c] give; [valid] are the prefixes of what a compression
    object writes. *)
Record codec {D C} (decompress : list byte -> Z -> SM D (list byte)) (tail : D -> list byte)
    (compress : list byte -> C -> list byte * C) (cflush : C -> list byte * C)
    (dec_init : D) (comp_init : C) (inflate : list byte -> list byte)
    (valid : list byte -> Prop) (Sd : D -> list byte -> Prop)
    (Sc : C -> list byte -> list byte -> Prop) : Prop := {
  co_prefix : forall a b, valid (a ++ b) -> valid a;
  co_mono : forall a b, valid (a ++ b) -> exists x, inflate (a ++ b) = inflate a ++ x;
  co_nil : inflate [] = [];
  co_dinit : Sd dec_init [];
  co_tail : forall d c, Sd d c -> tail d = [];
  co_step : forall d c b x m, Sd d c -> valid (c ++ b) -> inflate (c ++ b) = inflate c ++ x ->
    Z.of_nat (length x) < m -> exists d', decompress b m d = (Ok x, d') /\ Sd d' (c ++ b);
  co_cinit : Sc comp_init [] [];
  co_valid : forall k i o, Sc k i o -> valid o /\ inflate o = i;
  co_data : forall k i o w, Sc k i o -> w <> [] ->
    let (z, k1) := compress w k in
    let (t, k2) := cflush k1 in
    Sc k2 (i ++ w) (o ++ z ++ t) /\ z ++ t <> [];
  co_flush : forall k i o, Sc k i o -> let (t, k2) := cflush k in Sc k2 i (o ++ t) }.

Arguments co_prefix {D C decompress tail compress cflush dec_init comp_init inflate valid Sd Sc} _.
Arguments co_mono {D C decompress tail compress cflush dec_init comp_init inflate valid Sd Sc} _.
Arguments co_nil {D C decompress tail compress cflush dec_init comp_init inflate valid Sd Sc} _.
Arguments co_dinit {D C decompress tail compress cflush dec_init comp_init inflate valid Sd Sc} _.
Arguments co_tail {D C decompress tail compress cflush dec_init comp_init inflate valid Sd Sc} _.
Arguments co_step {D C decompress tail compress cflush dec_init comp_init inflate valid Sd Sc} _.
Arguments co_cinit {D C decompress tail compress cflush dec_init comp_init inflate valid Sd Sc} _.
Arguments co_valid {D C decompress tail compress cflush dec_init comp_init inflate valid Sd Sc} _.
Arguments co_data {D C decompress tail compress cflush dec_init comp_init inflate valid Sd Sc} _.
Arguments co_flush {D C decompress tail compress cflush dec_init comp_init inflate valid Sd Sc} _.

(** How many bytes a list of results holds. *)
Fixpoint handed (rs : list (outcome (list byte))) : Z :=
  match rs with
  | [] => 0
  | Ok b :: r => Z.of_nat (length b) + handed r
  | _ :: r => handed r
  end.

Lemma zrbuf_count {T D C} sz (z : zt T D C) :
  match zrbuf_read sz z with
  | (Ok d, z') => Z.of_nat (length d) + Z.of_nat (length (z_rbuf z')) = Z.of_nat (length (z_rbuf z))
                  /\ z_count z' = z_count z /\ z_rbuf z = d ++ z_rbuf z'
  | _ => False
  end.
Proof.
  unfold zrbuf_read, bytesio_read. destruct (sz <? 0); cbn.
  - rewrite app_nil_r. repeat split. lia.
  - rewrite firstn_length, skipn_length, firstn_skipn. repeat split. lia.
Qed.

Section Facts.
Context {T D C : Type}.
Variable U : transport T.
Variable decompress : list byte -> Z -> SM D (list byte).
Variable tail : D -> list byte.
Variable max : Z.

Notation zt := (zt T D C).

(** * The limit *)

(** What a call of readComp does to the count and the buffer. *)
Lemma readComp_count sz (z : zt) : limits decompress tail -> z_count z <> max ->
  match readComp U decompress tail max sz z with
  | (r, z') =>
      z_wbuf z' = z_wbuf z
      /\ exists k, z_count z' = z_count z + k /\ 0 <= k
         /\ Z.of_nat (length (z_rbuf z')) = Z.of_nat (length (z_rbuf z)) + k
         /\ (z_count z < max -> z_count z' <= max)
         /\ (max < z_count z -> k = 0)
         /\ match r with
            | Ok true => True
            | _ => k = 0 /\ z_rbuf z' = z_rbuf z
            end
  end.
Proof.
  intros HL Hne. unfold readComp.
  destruct (t_read U sz (z_trans z)) as [[b0|e|] t];
    [|split; [reflexivity|]; exists 0; cbn; repeat split; auto; lia..].
  destruct (HL (tail (z_dec z) ++ b0) (max - z_count z) (z_dec z)) as [HN HL'].
  destruct (decompress _ _ (z_dec z)) as [[o|e|] d];
    [|split; [reflexivity|]; exists 0; cbn; repeat split; auto; lia..].
  destruct (tail d) as [|x l].
  - destruct HL' as [H1 H2]. split; [reflexivity|]. exists (Z.of_nat (length o)).
    assert (N : max - z_count z < 0 -> False).
    { intros K. specialize (HN K). discriminate HN. }
    cbn [z_count z_rbuf]. rewrite app_length. repeat split; try lia.
    destruct (Z.of_nat (length (z_rbuf z)) + Z.of_nat (length o) =? 0) eqn:B; cbn [negb]; [|exact I].
    destruct o; [|cbn in B; lia]. rewrite app_nil_r. auto.
  - split; [reflexivity|]. exists 0. cbn. repeat split; auto; lia.
Qed.

Lemma comp_loop_count fuel sz : limits decompress tail -> forall z : zt, z_count z <> max ->
  match comp_loop U decompress tail max fuel sz z with
  | (r, z') =>
      z_wbuf z' = z_wbuf z
      /\ exists k, z_count z' = z_count z + k /\ 0 <= k
         /\ Z.of_nat (length (z_rbuf z')) = Z.of_nat (length (z_rbuf z)) + k
         /\ (z_count z < max -> z_count z' <= max)
         /\ (max < z_count z -> k = 0)
  end.
Proof.
  intros HL. induction fuel as [|n IH]; intros z Hne; cbn [comp_loop].
  { split; [reflexivity|]. exists 0. repeat split; auto; lia. }
  unfold bind. pose proof (readComp_count sz z HL Hne) as H.
  destruct (readComp U decompress tail max sz z) as [[[]|e|] z1];
    destruct H as (W & k & H1 & H2 & H3 & H4 & H4' & H5);
    try (split; [exact W|]; exists k; repeat split; auto; fail).
  destruct H5 as [-> H6]. specialize (IH z1 ltac:(lia)).
  destruct (comp_loop U decompress tail max n sz z1) as [r z2].
  destruct IH as (W2 & k2 & I1 & I2 & I3 & I4 & I5). split; [congruence|]. exists k2.
  repeat split; try lia.
Qed.

Lemma z_read_count fuel sz (z : zt) : limits decompress tail -> z_count z <> max ->
  match z_read U decompress tail max fuel sz z with
  | (r, z') =>
      handed [r] + Z.of_nat (length (z_rbuf z')) - Z.of_nat (length (z_rbuf z))
        <= z_count z' - z_count z
      /\ (z_count z < max -> z_count z' <= max)
      /\ (max < z_count z -> z_count z' = z_count z)
  end.
Proof.
  intros HL Hne. unfold z_read, bind. pose proof (zrbuf_count sz z) as H.
  destruct (zrbuf_read sz z) as [[d|e|] z1]; try contradiction. destruct H as (H1 & H2 & H3).
  destruct (0 <? Z.of_nat (length d)) eqn:B.
  - cbn [ret handed]. repeat split; lia.
  - pose proof (comp_loop_count fuel sz HL z1 ltac:(lia)) as H.
    destruct (comp_loop U decompress tail max fuel sz z1) as [[[]|e|] z2];
      destruct H as (W & k & K1 & K2 & K3 & K4 & K5); [|cbn [handed]; repeat split; lia..].
    pose proof (zrbuf_count sz z2) as H. destruct (zrbuf_read sz z2) as [[d2|e|] z3];
      try contradiction. destruct H as (L1 & L2 & L3). cbn [handed]. repeat split; lia.
Qed.

Variable compress : list byte -> C -> list byte * C.
Variable cflush : C -> list byte * C.

Lemma z_flush_count (z : zt) : let z' := snd (z_flush U compress cflush z) in
  z_count z' = z_count z /\ z_rbuf z' = z_rbuf z.
Proof.
  unfold z_flush.
  destruct (if 0 <? Z.of_nat (length (z_wbuf z)) then compress (z_wbuf z) (z_comp z)
            else ([], z_comp z)) as [zb c1]. destruct (cflush c1) as [zt0 c2].
  destruct (0 <? Z.of_nat (length zb) + Z.of_nat (length zt0)).
  - destruct (0 <? Z.of_nat (length (z_wbuf z))); [|split; reflexivity].
    unfold bind, on_z. cbn [z_trans]. destruct (t_write U _ (z_trans z)) as [[[]|e|] t];
      [|split; reflexivity..].
    cbn [z_trans]. destruct (t_flush U t) as [r t']. split; reflexivity.
  - unfold on_z. cbn [z_trans]. destruct (t_flush U (z_trans z)) as [r t']. split; reflexivity.
Qed.

(** * Data comes back *)

Variable dec_init : D.
Variable comp_init : C.
Variable inflate : list byte -> list byte.
Variable valid : list byte -> Prop.
Variable Sd : D -> list byte -> Prop.
Variable Sc : C -> list byte -> list byte -> Prop.
Hypothesis HC : codec decompress tail compress cflush dec_init comp_init inflate valid Sd Sc.

Variable R : T -> list byte -> Prop.
Hypothesis HS : stream R (t_read U).
(** The transport underneath raises at the end, as TSocket does. *)
Hypothesis HE : forall t sz, R t [] -> 0 < sz ->
  exists e t', t_read U sz t = (Raise e, t') /\ eof_exn e /\ R t' [].

(** [z] will deliver [l]. *)
Definition z_rel (fuel : nat) (z : zt) (l : list byte) : Prop :=
  exists before rest x, R (z_trans z) rest /\ Sd (z_dec z) before /\ valid (before ++ rest)
    /\ inflate (before ++ rest) = inflate before ++ x
    /\ z_count z = Z.of_nat (length (inflate before))
    /\ Z.of_nat (length (inflate (before ++ rest))) < max
    /\ l = z_rbuf z ++ x /\ (length rest < fuel)%nat.

Lemma comp_loop_ok fuel sz : 0 < sz -> forall n (z : zt) before rest x,
  R (z_trans z) rest -> Sd (z_dec z) before -> valid (before ++ rest) ->
  inflate (before ++ rest) = inflate before ++ x ->
  z_count z = Z.of_nat (length (inflate before)) ->
  Z.of_nat (length (inflate (before ++ rest))) < max -> z_rbuf z = [] ->
  (length rest < n <= fuel)%nat ->
  match comp_loop U decompress tail max n sz z with
  | (Ok _, z') => z_rel fuel z' x /\ z_rbuf z' <> []
  | (Raise e, z') => x = [] /\ eof_exn e /\ z_rel fuel z' [] /\ z_rbuf z' = []
  | (Diverge, _) => False
  end.
Proof.
  intros Hsz. induction n as [|n IH]; intros z before rest x HR Hd Hv Hx Hc Hm Hb Hn; [lia|].
  cbn [comp_loop]. unfold bind, readComp.
  pose proof (HS (z_trans z) rest sz HR Hsz) as H.
  destruct (t_read U sz (z_trans z)) as [[b0|e|] t] eqn:ER; [|
    destruct H as (-> & He & HR'); rewrite app_nil_r in Hx;
    assert (x = []) as -> by (apply (app_inv_head (inflate before)); rewrite app_nil_r; congruence);
    split; [reflexivity|]; split; [exact He|]; split; [|exact Hb];
    exists before, [], []; cbn; rewrite !app_nil_r in *; rewrite Hb; repeat split; auto; lia|
    destruct H].
  destruct H as (rest' & Hr & HR' & Hl & Hne).
  assert (Nb : b0 <> []).
  { intros ->. specialize (Hne eq_refl). rewrite Hne in HR.
    destruct (HE (z_trans z) sz HR Hsz) as (e & t' & E' & _). congruence. }
  rewrite (co_tail HC _ _ Hd). cbn [app].
  rewrite Hr, app_assoc in Hv.
  destruct (co_mono HC before b0) as (y & Hy).
  { exact (co_prefix HC _ _ Hv). }
  destruct (co_mono HC (before ++ b0) rest' Hv) as (w & Hw).
  assert (Hxy : x = y ++ w).
  { apply (app_inv_head (inflate before)). rewrite <- Hx, Hr, app_assoc, Hw, Hy, app_assoc.
    reflexivity. }
  assert (Hlen : Z.of_nat (length (inflate before)) + Z.of_nat (length y)
                 + Z.of_nat (length w) < max).
  { rewrite Hr, app_assoc, Hw, Hy, !app_length in Hm. lia. }
  destruct (co_step HC (z_dec z) before b0 y (max - z_count z) Hd
    (co_prefix HC _ _ Hv) Hy ltac:(lia)) as (d' & Ed & Hd').
  rewrite Ed, (co_tail HC _ _ Hd'), Hb. cbn [length app].
  assert (L : (length rest' < length rest)%nat).
  { rewrite Hr, app_length. destruct b0; [congruence|cbn; lia]. }
  destruct y as [|y0 y].
  - cbn [length]. change (Z.of_nat 0 + Z.of_nat 0 =? 0) with true. cbn [negb].
    rewrite app_nil_r in Hy. cbn [app] in Hxy. subst w.
    apply (IH _ (before ++ b0) rest' x); cbn [z_trans z_dec z_rbuf z_count]; auto; try lia.
    + rewrite Hy. lia.
    + rewrite Hr, app_assoc in Hm. exact Hm.
  - replace (Z.of_nat 0 + Z.of_nat (length (y0 :: y)) =? 0) with false by (cbn [length]; lia).
    cbn [negb ret]. split; [|discriminate].
    exists (before ++ b0), rest', w. cbn [z_trans z_dec z_rbuf z_count].
    repeat split; auto; try lia.
    + rewrite Hy, app_length. lia.
    + rewrite Hr, app_assoc in Hm. exact Hm.
Qed.

Lemma zrbuf_rel fuel sz z l : z_rel fuel z l ->
  match zrbuf_read sz z with
  | (Ok d, z') => exists l', l = d ++ l' /\ z_rel fuel z' l'
  | _ => False
  end.
Proof.
  intros (before & rest & x & H1 & H2 & H3 & H4 & H5 & H6 & H7 & H8).
  pose proof (zrbuf_count sz z) as H. unfold zrbuf_read in *.
  destruct (bytesio_read sz (z_rbuf z)) as [a b]. cbn in H. destruct H as (_ & _ & K).
  exists (b ++ x). rewrite H7, K, app_assoc. split; [reflexivity|].
  exists before, rest, x. cbn. auto 10.
Qed.

Lemma z_stream fuel : stream (z_rel fuel) (z_read U decompress tail max fuel).
Proof.
  intros z l sz HR Hsz. unfold z_read, bind.
  pose proof (zrbuf_rel fuel sz z l HR) as H. pose proof (zrbuf_count sz z) as HB.
  unfold zrbuf_read in *. destruct (bytesio_read sz (z_rbuf z)) as [a b] eqn:EB.
  cbn in HB. destruct HB as (HB1 & _ & HB2). destruct H as (l' & Hl & HR').
  assert (Ha : Z.of_nat (length a) <= sz).
  { unfold bytesio_read in EB. replace (sz <? 0) with false in EB by lia.
    injection EB as <- <-. rewrite firstn_length. lia. }
  destruct (0 <? Z.of_nat (length a)) eqn:B.
  - unfold ret. exists l'. repeat split; auto. intros ->. cbn in B. lia.
  - destruct a as [|a0 a]; [|cbn [length] in B; lia]. cbn [app] in Hl, HB2. subst l' b.
    assert (Eb : z_rbuf z = []).
    { unfold bytesio_read in EB. replace (sz <? 0) with false in EB by lia.
      injection EB as E1 _. destruct (z_rbuf z); [reflexivity|].
      replace (Z.to_nat sz) with (S (Z.to_nat (sz - 1))) in E1 by lia. discriminate E1. }
    destruct HR' as (before & rest & x & H1 & H2 & H3 & H4 & H5 & H6 & H7 & H8).
    cbn [z_trans z_dec z_rbuf z_count] in *. rewrite Eb in H7. cbn [app] in H7. subst x.
    pose proof (comp_loop_ok fuel sz Hsz fuel
      (mkzt (z_trans z) (z_rbuf z) (z_wbuf z) (z_dec z) (z_comp z) (z_count z)
         (z_in z) (z_in_comp z) (z_out z) (z_out_comp z)) before rest l H1 H2 H3 H4 H5 H6 Eb
      ltac:(lia)) as HL.
    destruct (comp_loop U decompress tail max fuel sz _) as [[u|e|] z2].
    + destruct HL as [HR2 Hne]. pose proof (zrbuf_rel fuel sz z2 l HR2) as H.
      unfold zrbuf_read in H |- *. destruct (bytesio_read sz (z_rbuf z2)) as [a b] eqn:EB2.
      destruct H as (l' & Hl & HR3). exists l'. split; [exact Hl|]. split; [exact HR3|].
      unfold bytesio_read in EB2. replace (sz <? 0) with false in EB2 by lia.
      injection EB2 as <- <-. split; [rewrite firstn_length; lia|].
      intros K. destruct (z_rbuf z2); [congruence|].
      replace (Z.to_nat sz) with (S (Z.to_nat (sz - 1))) in K by lia. discriminate K.
    + destruct HL as (-> & He & HR2 & _). auto.
    + exact HL.
Qed.

(** * Writing *)

Lemma z_flush_ok (z : zt) i o : Sc (z_comp z) i o -> z_wbuf z <> [] ->
  exists b k out outc, b <> [] /\ Sc k (i ++ z_wbuf z) (o ++ b)
    /\ z_flush U compress cflush z
       = (on_z (t_write U b) ;;; on_z (t_flush U))%monad
           (mkzt (z_trans z) (z_rbuf z) [] (z_dec z) k (z_count z) (z_in z) (z_in_comp z) out outc).
Proof. clear HE HS R max.
  intros HK Hw. unfold z_flush.
  pose proof (co_data HC (z_comp z) i o (z_wbuf z) HK Hw) as H.
  replace (0 <? Z.of_nat (length (z_wbuf z))) with true
    by (destruct (z_wbuf z); [congruence|cbn [length]; lia]).
  destruct (compress (z_wbuf z) (z_comp z)) as [zb k1]. destruct (cflush k1) as [t k2].
  destruct H as [H1 H2]. exists (zb ++ t), k2. do 2 eexists. split; [exact H2|].
  split; [exact H1|].
  replace (0 <? Z.of_nat (length zb) + Z.of_nat (length t)) with true; [reflexivity|].
  destruct zb; destruct t; try (cbn [length]; lia). exfalso. apply H2. reflexivity.
Qed.

End Facts.
