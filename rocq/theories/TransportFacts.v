(** Proofs about the transports of Transport.v. *)
From Coq Require Import ZArith List Bool Lia ZifyBool ZifyNat.
From Coq Require Import Init.Byte.
From Verif Require Import Base Bytes BytesFacts Transport.
Import ListNotations.
Open Scope Z_scope.

(** How the end of a stream is reported by an exception. *)
Definition eof_exn (e : exn) : Prop := e = EEOFError \/ e = ETransport TT_END_OF_FILE.

(** [read] delivers a byte stream: in a state related to [c], a read of a
    positive size returns a piece from the front of [c], empty only at the end;
    at the end it may raise instead. *)
Definition stream {T} (R : T -> list byte -> Prop) (read : Z -> SM T (list byte)) : Prop :=
  forall t c sz, R t c -> 0 < sz ->
  match read sz t with
  | (Ok d, t') => exists c', c = d ++ c' /\ R t' c' /\ Z.of_nat (length d) <= sz
                             /\ (d = [] -> c = [])
  | (Raise e, t') => c = [] /\ eof_exn e /\ R t' []
  | (Diverge, _) => False
  end.

(** Exactly [n] bytes from the front, or the stream was too short. *)
Definition exact_read {T} (R : T -> list byte -> Prop) (c : list byte) (n : Z)
    (r : outcome (list byte) * T) : Prop :=
  match r with
  | (Ok d, t') => exists c', c = d ++ c' /\ R t' c' /\ Z.of_nat (length d) = Z.max 0 n
  | (Raise e, t') => Z.of_nat (length c) < n /\ eof_exn e /\ R t' []
  | (Diverge, _) => False
  end.

Lemma readAll_loop_exact T (R : T -> list byte -> Prop) read : stream R read ->
  forall fuel t c sz have buff, R t c -> 0 <= have -> have < sz ->
  (Z.to_nat (sz - have) < fuel)%nat -> Z.of_nat (length buff) = have ->
  match readAll_loop fuel read sz have buff t with
  | (Ok d, t') => exists p c', d = buff ++ p /\ c = p ++ c' /\ R t' c'
                               /\ Z.of_nat (length d) = sz
  | (Raise e, t') => have + Z.of_nat (length c) < sz /\ eof_exn e /\ R t' []
  | (Diverge, _) => False
  end.
Proof.
  intros HS. induction fuel as [|f IH]; intros t c sz have buff HR H0 H1 HF Hb; [lia|].
  cbn [readAll_loop]. destruct (have <? sz) eqn:E; [|lia]. unfold bind.
  pose proof (HS t c (sz - have) HR ltac:(lia)) as H.
  destruct (read (sz - have) t) as [[d|e|] t'].
  - destruct H as (c' & Hc & HR' & Hl & He).
    destruct (Z.of_nat (length d) =? 0) eqn:F.
    + destruct d; [|cbn [length] in F; lia]. rewrite (He eq_refl) in *.
      destruct c'; [|discriminate Hc]. unfold raise.
      split; [cbn [length]; lia|]. split; [left; reflexivity|exact HR'].
    + destruct (Z.eq_dec (have + Z.of_nat (length d)) sz) as [Eq|Ne].
      * destruct f as [|f']; [lia|]. cbn [readAll_loop].
        destruct (have + Z.of_nat (length d) <? sz) eqn:G; [lia|].
        unfold ret. exists d, c'. rewrite app_length. repeat split; auto. lia.
      * specialize (IH t' c' sz (have + Z.of_nat (length d)) (buff ++ d) HR'
          ltac:(lia) ltac:(lia) ltac:(lia) ltac:(rewrite app_length; lia)).
        destruct (readAll_loop f read sz _ _ t') as [[w|e|] t2].
        -- destruct IH as (p & c2 & -> & -> & HR2 & Hlen).
           exists (d ++ p), c2. rewrite Hc, <- !app_assoc.
           split; [reflexivity|]. split; [reflexivity|]. split; [exact HR2|].
           rewrite app_assoc. exact Hlen.
        -- destruct IH as (A & B & C). rewrite Hc, app_length. repeat split; auto. lia.
        -- exact IH.
  - destruct H as (-> & He & HR'). cbn [length]. repeat split; auto; lia.
  - exact H.
Qed.

Theorem readAll_exact T (R : T -> list byte -> Prop) read t c n : stream R read ->
  R t c -> exact_read R c n (readAll_t read n t).
Proof.
  intros HS HR. unfold readAll_t, exact_read. destruct (Z_le_gt_dec n 0) as [L|G].
  - cbn [readAll_loop]. destruct (0 <? n) eqn:E; [lia|]. unfold ret.
    exists c. cbn [app length]. repeat split; auto. lia.
  - pose proof (readAll_loop_exact T R read HS (S (Z.to_nat n)) t c n 0 [] HR ltac:(lia)
      ltac:(lia) ltac:(lia) eq_refl) as H.
    destruct (readAll_loop _ _ _ _ _ _) as [[d|e|] t'].
    + destruct H as (p & c' & -> & -> & HR' & Hl). exists c'. repeat split; auto. lia.
    + destruct H as (A & B & C). repeat split; auto; lia.
    + exact H.
Qed.

(** The two cases by size. *)
Lemma firstn_exact {A} (d c : list A) n : length d = n -> firstn n (d ++ c) = d.
Proof. intros <-. rewrite firstn_app, Nat.sub_diag, firstn_all, firstn_O, app_nil_r.
  reflexivity. Qed.
Lemma skipn_exact {A} (d c : list A) n : length d = n -> skipn n (d ++ c) = c.
Proof. intros <-. rewrite skipn_app, Nat.sub_diag, skipn_all. reflexivity. Qed.

Corollary readAll_enough T (R : T -> list byte -> Prop) read t c n : stream R read ->
  R t c -> 0 <= n <= Z.of_nat (length c) ->
  exists t', readAll_t read n t = (Ok (firstn (Z.to_nat n) c), t')
             /\ R t' (skipn (Z.to_nat n) c).
Proof.
  intros HS HR Hn. pose proof (readAll_exact T R read t c n HS HR) as H.
  destruct (readAll_t read n t) as [[d|e|] t']; cbn [exact_read] in H.
  - destruct H as (c' & -> & HR' & Hl). exists t'.
    rewrite firstn_exact, skipn_exact by lia. split; [reflexivity|exact HR'].
  - lia.
  - contradiction.
Qed.

Corollary readAll_short T (R : T -> list byte -> Prop) read t c n : stream R read ->
  R t c -> Z.of_nat (length c) < n ->
  exists e t', readAll_t read n t = (Raise e, t') /\ eof_exn e /\ R t' [].
Proof.
  intros HS HR Hn. pose proof (readAll_exact T R read t c n HS HR) as H.
  destruct (readAll_t read n t) as [[d|e|] t']; cbn [exact_read] in H.
  - destruct H as (c' & -> & HR' & Hl). rewrite app_length in Hn. lia.
  - destruct H as (_ & He & HR'). exists e, t'. auto.
  - contradiction.
Qed.

Lemma readAll_nothing T (read : Z -> SM T (list byte)) n t : n <= 0 ->
  readAll_t read n t = (Ok [], t).
Proof.
  intros H. unfold readAll_t. cbn [readAll_loop]. destruct (0 <? n) eqn:E; [lia|reflexivity].
Qed.

(** * Streams *)

Definition source_rel (s : source) (c : list byte) : Prop := src_data s = c.

Lemma source_stream : stream source_rel source_read.
Proof.
  intros s c sz HR Hsz. unfold source_rel in *. unfold source_read. rewrite HR.
  destruct c as [|b c].
  - destruct (src_raises s).
    + split; [reflexivity|]. split; [right; reflexivity|exact HR].
    + exists []. split; [reflexivity|]. split; [exact HR|]. split; [cbn; lia|auto].
  - set (n := Nat.min (Z.to_nat sz) _).
    assert (Hn : (1 <= n)%nat).
    { unfold n. destruct (src_plan s); cbn [length]; lia. }
    exists (skipn n (b :: c)). rewrite firstn_skipn. split; [reflexivity|].
    split; [reflexivity|]. split.
    + rewrite firstn_length. lia.
    + intros H. destruct n; [lia|discriminate].
Qed.

Definition mem_rel {X} (x : X) (o : list byte) (d : Z) (s : st X) (c : list byte) : Prop :=
  s = mkst x c o d.

Lemma mem_stream X (x : X) o d : stream (mem_rel x o d) mem_read.
Proof.
  intros s c sz -> Hsz. unfold mem_read, bytesio_read. cbn [inp px out depth].
  destruct (sz <? 0) eqn:E; [lia|].
  exists (skipn (Z.to_nat sz) c). rewrite firstn_skipn.
  split; [reflexivity|]. split; [reflexivity|].
  split; [rewrite firstn_length; lia|].
  intros H. destruct c; [reflexivity|]. destruct (Z.to_nat sz) eqn:F; [lia|discriminate].
Qed.

Lemma mem_eof X fuel sz have buff (s : st X) e s' :
  readAll_loop fuel mem_read sz have buff s = (Raise e, s') -> e = EEOFError.
Proof.
  revert have buff s. induction fuel as [|f IH]; intros have buff s; cbn [readAll_loop];
    [discriminate|].
  destruct (have <? sz); [|discriminate]. unfold bind, mem_read.
  destruct (bytesio_read _ _) as [a b].
  destruct (_ =? 0); [unfold raise; congruence|apply IH].
Qed.

(** The summary of readAll used by the protocol models. *)
Theorem readAll_summary X n (s : st X) : readAll n s = readAll_t mem_read n s.
Proof.
  destruct s as [x i o d]. unfold readAll. cbn [inp px out depth].
  destruct (n <=? 0) eqn:E; [symmetry; apply readAll_nothing; lia|].
  destruct (n <=? Z.of_nat (length i)) eqn:F.
  - destruct (readAll_enough _ _ _ (mkst x i o d) i n (mem_stream X x o d) eq_refl) as (t' & -> & HR);
      [lia|]. rewrite HR. reflexivity.
  - destruct (readAll_short _ _ _ (mkst x i o d) i n (mem_stream X x o d) eq_refl) as (e & t' & H & _ & HR);
      [lia|]. rewrite H, HR. apply mem_eof in H. rewrite H. reflexivity.
Qed.

(** * Buffered *)

Section Wrapped.
Context {T : Type}.
Variable U : transport T.
Variable R : T -> list byte -> Prop.
Hypothesis HS : stream R (t_read U).

Definition buffered_rel (s : wrap T) (c : list byte) : Prop :=
  exists c', R (w_trans s) c' /\ c = w_rbuf s ++ c'.

Lemma bytesio_split sz l : 0 < sz -> exists a b, bytesio_read sz l = (a, b)
  /\ l = a ++ b /\ Z.of_nat (length a) <= sz /\ (a = [] -> l = []).
Proof.
  intros H. unfold bytesio_read. destruct (sz <? 0) eqn:E; [lia|].
  exists (firstn (Z.to_nat sz) l), (skipn (Z.to_nat sz) l).
  rewrite firstn_skipn. repeat split; [rewrite firstn_length; lia|].
  intros Ha. destruct l; [reflexivity|]. destruct (Z.to_nat sz) eqn:F; [lia|discriminate].
Qed.

Theorem buffered_stream size : stream buffered_rel (buffered_read U size).
Proof.
  intros [t rb wb] c sz (c' & HR & ->) Hsz. cbn [w_trans w_rbuf] in *.
  unfold buffered_read, bind, rbuf_read, set_rbuf, on_trans. cbn [w_trans w_rbuf w_wbuf].
  destruct (bytesio_split sz rb Hsz) as (a & b & -> & -> & Hl & He).
  cbn [w_trans w_rbuf w_wbuf].
  destruct (Z.of_nat (length a) =? 0) eqn:E; cbn [negb].
  - destruct a; [|cbn [length] in E; lia]. specialize (He eq_refl).
    cbn [app] in He. subst b. cbn [app w_trans w_rbuf w_wbuf].
    pose proof (HS t c' (Z.max sz size) HR ltac:(lia)) as H.
    destruct (t_read U (Z.max sz size) t) as [[d|e|] t'].
    + destruct H as (c2 & -> & HR2 & Hld & Hed). cbn [w_trans w_rbuf w_wbuf].
      destruct (bytesio_split sz d Hsz) as (a2 & b2 & E2 & -> & Hl2 & He2).
      rewrite E2.
      exists (b2 ++ c2). rewrite app_assoc. split; [reflexivity|].
      split; [exists c2; split; [exact HR2|reflexivity]|].
      split; [exact Hl2|]. intros Ha. apply Hed. apply He2, Ha.
    + destruct H as (-> & He' & HR2). split; [reflexivity|]. split; [exact He'|].
      exists []. split; [exact HR2|reflexivity].
    + exact H.
  - unfold ret. exists (b ++ c'). rewrite app_assoc. split; [reflexivity|].
    split; [exists c'; split; [exact HR|reflexivity]|]. split; [exact Hl|].
    intros ->. cbn in E. lia.
Qed.

(** Writes then flush: the transport underneath sees one write of everything,
    then a flush; the buffer is empty whatever comes of it. *)
Lemma buffered_flush_eq s :
  buffered_flush U s
  = match (t_write U (w_wbuf s) ;;; t_flush U) (w_trans s) with
    | (r, t') => (r, mkwrap t' (w_rbuf s) [])
    end.
Proof.
  destruct s as [t rb wb]. unfold buffered_flush, bind, wbuf_getvalue, set_wbuf, on_trans.
  cbn [w_trans w_rbuf w_wbuf].
  destruct (t_write U wb t) as [[u|e|] t']; [|reflexivity|reflexivity].
  cbn [w_trans w_rbuf w_wbuf]. destruct (t_flush U t') as [r t2]. reflexivity.
Qed.

Lemma writes_accumulate ws (s : wrap T) :
  mapM_ w_write ws s = (Ok tt, mkwrap (w_trans s) (w_rbuf s) (w_wbuf s ++ concat ws)).
Proof.
  revert s. induction ws as [|w ws IH]; intros [t rb wb]; cbn [mapM_ concat].
  - rewrite app_nil_r. reflexivity.
  - unfold bind, w_write at 1. rewrite IH. cbn [w_trans w_rbuf w_wbuf].
    rewrite <- app_assoc. reflexivity.
Qed.

(** Refill for the C reader. *)
Definition refilled (c p : list byte) (wb : list byte) (req : Z)
    (x : outcome (list byte) * wrap T) : Prop :=
  match x with
  | (Ok r, s') => exists c', R (w_trans s') c' /\ p ++ c = r ++ c' /\ w_rbuf s' = r
                             /\ w_wbuf s' = wb /\ req <= Z.of_nat (length r)
  | (Raise e, _) => Z.of_nat (length (p ++ c)) < req /\ eof_exn e
  | (Diverge, _) => False
  end.

Lemma refill_tail t1 c1 r1 rb wb c p req : R t1 c1 -> p ++ c = r1 ++ c1 ->
  refilled c p wb req
    ((r2 <- (if Z.of_nat (length r1) <? req
             then c <- on_trans (readAll_t (t_read U) (req - Z.of_nat (length r1))) ;;
                  ret (r1 ++ c)
             else ret r1) ;;
      set_rbuf r2 ;;;
      ret r2) (mkwrap t1 rb wb)).
Proof.
  intros HR1 E1. unfold refilled. destruct (Z.of_nat (length r1) <? req) eqn:F.
  - unfold bind, on_trans, set_rbuf. cbn [w_trans w_rbuf w_wbuf].
    pose proof (readAll_exact T R (t_read U) t1 c1 (req - Z.of_nat (length r1)) HS HR1) as H.
    destruct (readAll_t _ _ t1) as [[d|e|] t2]; cbn [exact_read] in H.
    + destruct H as (c2 & -> & HR2 & Hl). unfold ret. cbn [w_trans w_rbuf w_wbuf].
      exists c2. rewrite E1, app_assoc. repeat split; auto. rewrite app_length. lia.
    + destruct H as (Hl & He & _). split; [|exact He]. rewrite E1, app_length. lia.
    + exact H.
  - unfold bind, ret, set_rbuf. cbn [w_trans w_rbuf w_wbuf]. exists c1. repeat split; auto. lia.
Qed.

Theorem buffered_refill_ok size t rb wb c p req : R t c ->
  Z.of_nat (length p) < req -> 0 < size ->
  refilled c p wb req (buffered_refill U size p req (mkwrap t rb wb)).
Proof.
  intros HR Hp Hs. unfold buffered_refill. unfold bind at 1.
  destruct (req <? size) eqn:E.
  - unfold bind at 1. unfold on_trans at 1. cbn [w_trans w_rbuf w_wbuf].
    pose proof (HS t c size HR Hs) as H.
    destruct (t_read U size t) as [[d|e|] t1].
    + destruct H as (c1 & -> & HR1 & _ & _). unfold ret at 1.
      apply (refill_tail t1 c1); [assumption|]. rewrite app_assoc. reflexivity.
    + destruct H as (-> & He & _). split; [rewrite app_nil_r; lia|exact He].
    + exact H.
  - unfold ret at 1. apply (refill_tail t c); auto.
Qed.

(** * Framed *)

(** A frame on the wire. *)
Definition frame (p : list byte) : list byte := be_bytes 4 (Z.of_nat (length p)) ++ p.

Definition frame_ok (p : list byte) : Prop := p <> [] /\ Z.of_nat (length p) < 2 ^ 31.

(** What is left after the last whole frame: less than a header, or a header
    announcing more than there is. *)
Definition incomplete (r : list byte) : Prop :=
  (length r < 4)%nat \/ Z.of_nat (length r - 4) < unpack_signed 4 (firstn 4 r).

Definition framed_rel (s : wrap T) (c : list byte) : Prop :=
  exists ps r, R (w_trans s) (concat (map frame ps) ++ r) /\ Forall frame_ok ps
    /\ incomplete r /\ c = w_rbuf s ++ concat ps.

Lemma incomplete_nil : incomplete [].
Proof. left. cbn. lia. Qed.

Lemma readFrame_ok t rb wb p c : R t (frame p ++ c) -> Z.of_nat (length p) < 2 ^ 31 ->
  exists t', readFrame U (mkwrap t rb wb) = (Ok tt, mkwrap t' p wb) /\ R t' c.
Proof.
  intros HR Hp. unfold frame in HR. rewrite <- app_assoc in HR.
  unfold readFrame, bind, on_trans. cbn [w_trans w_rbuf w_wbuf].
  assert (L4 : length (be_bytes 4 (Z.of_nat (length p))) = 4%nat) by reflexivity.
  destruct (readAll_enough T R (t_read U) t _ 4 HS HR) as (t1 & -> & HR1).
  { rewrite !app_length, L4. lia. }
  change (Z.to_nat 4) with 4%nat in *.
  rewrite firstn_exact by exact L4. rewrite skipn_exact in HR1 by exact L4.
  cbn [w_trans w_rbuf w_wbuf]. rewrite unpack_pack
    by (unfold in_signed; change (2 ^ (8 * Z.of_nat 4 - 1)) with (2 ^ 31); lia).
  destruct (readAll_enough T R (t_read U) t1 _ (Z.of_nat (length p)) HS HR1) as (t2 & -> & HR2).
  { rewrite app_length. lia. }
  rewrite Nat2Z.id, firstn_exact by reflexivity.
  rewrite Nat2Z.id, skipn_exact in HR2 by reflexivity.
  exists t2. split; [reflexivity|exact HR2].
Qed.

Lemma readFrame_short t rb wb r : R t r -> incomplete r ->
  exists e t', readFrame U (mkwrap t rb wb) = (Raise e, mkwrap t' rb wb)
               /\ eof_exn e /\ R t' [].
Proof.
  intros HR Hr. unfold readFrame, bind, on_trans. cbn [w_trans w_rbuf w_wbuf].
  destruct (Nat.lt_ge_cases (length r) 4) as [L|G].
  - destruct (readAll_short T R (t_read U) t r 4 HS HR) as (e & t' & -> & He & HR');
      [lia|]. exists e, t'. auto.
  - destruct Hr as [Hr|Hr]; [lia|].
    destruct (readAll_enough T R (t_read U) t _ 4 HS HR) as (t1 & -> & HR1); [lia|].
    change (Z.to_nat 4) with 4%nat in *. cbn [w_trans w_rbuf w_wbuf].
    destruct (readAll_short T R (t_read U) t1 _ (unpack_signed 4 (firstn 4 r)) HS HR1)
      as (e & t' & -> & He & HR').
    { rewrite skipn_length. lia. }
    exists e, t'. auto.
Qed.

Theorem framed_stream : stream framed_rel (framed_read U).
Proof.
  intros [t rb wb] c sz (ps & r & HR & Hps & Hr & ->) Hsz. cbn [w_trans w_rbuf] in *.
  unfold framed_read, bind, rbuf_read at 1. cbn [w_trans w_rbuf w_wbuf].
  destruct (bytesio_split sz rb Hsz) as (a & b & -> & -> & Hl & He).
  destruct (Z.of_nat (length a) =? 0) eqn:E; cbn [negb].
  - destruct a; [|cbn [length] in E; lia]. specialize (He eq_refl).
    cbn [app] in He. subst b. cbn [app].
    destruct ps as [|p ps].
    + cbn [map concat app] in HR.
      destruct (readFrame_short t [] wb r HR Hr) as (e & t' & -> & He' & HR').
      cbn [concat]. split; [reflexivity|]. split; [exact He'|].
      exists [], []. cbn [map concat app w_trans w_rbuf]. repeat split; auto.
      apply incomplete_nil.
    + inversion Hps as [|? ? [Hp1 Hp2] Hps']; subst.
      cbn [map concat] in HR. rewrite <- app_assoc in HR.
      destruct (readFrame_ok t [] wb p _ HR Hp2) as (t' & -> & HR').
      unfold rbuf_read. cbn [w_trans w_rbuf w_wbuf].
      destruct (bytesio_split sz p Hsz) as (a2 & b2 & E2 & E3 & Hl2 & He2).
      rewrite E2. cbn [concat]. exists (b2 ++ concat ps). split.
      { rewrite E3 at 1. rewrite app_assoc. reflexivity. }
      split; [|split; [exact Hl2|]].
      * exists ps, r. cbn [w_trans w_rbuf]. auto.
      * intros ->. exfalso. apply Hp1, He2. reflexivity.
  - unfold ret. exists (b ++ concat ps). rewrite app_assoc. split; [reflexivity|].
    split; [exists ps, r; cbn [w_trans w_rbuf]; auto|]. split; [exact Hl|].
    intros ->. cbn in E. lia.
Qed.

Lemma framed_flush_eq s : Z.of_nat (length (w_wbuf s)) < 2 ^ 31 ->
  framed_flush U s
  = match (t_write U (frame (w_wbuf s)) ;;; t_flush U) (w_trans s) with
    | (r, t') => (r, mkwrap t' (w_rbuf s) [])
    end.
Proof.
  destruct s as [t rb wb]. cbn [w_wbuf]. intros Hl.
  unfold framed_flush, bind, wbuf_getvalue, set_wbuf, on_trans.
  cbn [w_trans w_rbuf w_wbuf].
  rewrite pack_signed_ok
    by (unfold in_signed; change (2 ^ (8 * Z.of_nat 4 - 1)) with (2 ^ 31); lia).
  cbn [w_trans w_rbuf w_wbuf]. fold (frame wb).
  destruct (t_write U (frame wb) t) as [[u|e|] t']; [|reflexivity|reflexivity].
  cbn [w_trans w_rbuf w_wbuf]. destruct (t_flush U t') as [r t2]. reflexivity.
Qed.

Lemma framed_flush_big s : 2 ^ 31 <= Z.of_nat (length (w_wbuf s)) ->
  framed_flush U s = (Raise EStructError, mkwrap (w_trans s) (w_rbuf s) []).
Proof.
  destruct s as [t rb wb]. cbn [w_wbuf]. intros Hl.
  unfold framed_flush, bind, wbuf_getvalue, set_wbuf. cbn [w_trans w_rbuf w_wbuf].
  rewrite pack_signed_bad
    by (unfold in_signed; change (2 ^ (8 * Z.of_nat 4 - 1)) with (2 ^ 31); lia).
  reflexivity.
Qed.

Lemma buffered_no_residue s : w_wbuf (snd (buffered_flush U s)) = [].
Proof. rewrite buffered_flush_eq. match goal with |- context [match ?x with _ => _ end] => destruct x end; reflexivity. Qed.

Lemma framed_no_residue s : w_wbuf (snd (framed_flush U s)) = [].
Proof.
  destruct (Z_lt_le_dec (Z.of_nat (length (w_wbuf s))) (2 ^ 31)).
  - rewrite framed_flush_eq by assumption.
    match goal with |- context [match ?x with _ => _ end] => destruct x end; reflexivity.
  - rewrite framed_flush_big by assumption. reflexivity.
Qed.

(** Refill for the C reader: whole frames are added until there is enough. *)
Theorem framed_refill_loop_ok fuel : forall t rb wb ps r p req,
  R t (concat (map frame ps) ++ r) -> Forall frame_ok ps -> incomplete r ->
  (Z.to_nat req < fuel + length p)%nat ->
  match framed_refill_loop U fuel p req (mkwrap t rb wb) with
  | (Ok q, s') => exists ps' ps2, ps = ps' ++ ps2 /\ q = p ++ concat ps'
      /\ R (w_trans s') (concat (map frame ps2) ++ r) /\ req <= Z.of_nat (length q)
      /\ w_wbuf s' = wb
  | (Raise e, _) => Z.of_nat (length (p ++ concat ps)) < req /\ eof_exn e
  | (Diverge, _) => (fuel = 0)%nat
  end.
Proof.
  induction fuel as [|f IH]; intros t rb wb ps r p req HR Hps Hr HF; [reflexivity|].
  cbn [framed_refill_loop]. destruct (Z.of_nat (length p) <? req) eqn:E.
  - unfold bind. destruct ps as [|q ps].
    + cbn [map concat app] in HR.
      destruct (readFrame_short t rb wb r HR Hr) as (e & t' & -> & He & HR').
      cbn [concat]. rewrite app_nil_r. split; [lia|exact He].
    + inversion Hps as [|? ? [Hq1 Hq2] Hps']; subst.
      cbn [map concat] in HR. rewrite <- app_assoc in HR.
      destruct (readFrame_ok t rb wb q _ HR Hq2) as (t' & -> & HR').
      cbn [w_rbuf]. destruct f as [|f'].
      * destruct q; [contradiction|]. lia.
      * specialize (IH t' q wb ps r (p ++ q) req HR' Hps' Hr).
        destruct q as [|b q]; [contradiction|].
        specialize (IH ltac:(rewrite app_length; cbn [length]; lia)).
        destruct (framed_refill_loop U (S f') _ _ _) as [[w|e|] s'].
        -- destruct IH as (ps' & ps2 & -> & -> & HR2 & Hl & Hw).
           exists ((b :: q) :: ps'), ps2. cbn [concat]. rewrite <- app_assoc in Hl |- *.
           split; [reflexivity|]. split; [reflexivity|]. auto.
        -- destruct IH as (A & B). cbn [concat]. rewrite <- app_assoc in A. auto.
        -- discriminate IH.
  - unfold ret. exists [], ps. cbn [app concat w_trans]. rewrite app_nil_r.
    repeat split; auto. lia.
Qed.

End Wrapped.

(** * TSocket.write *)

Lemma sock_write_loop_ok fuel : forall sent have buff s,
  s_open s = true -> (sent + length buff = have)%nat -> (length buff < fuel)%nat ->
  match sock_write_loop fuel sent have buff s with
  | (Ok _, s') => s_taken s' = s_taken s ++ buff
  | (Raise e, s') => exists p q, buff = p ++ q /\ q <> [] /\ s_taken s' = s_taken s ++ p
      /\ (e = ETransport TT_END_OF_FILE \/ e = ETransport TT_UNKNOWN)
  | (Diverge, _) => False
  end.
Proof.
  induction fuel as [|f IH]; intros sent have buff s Ho Hl HF; [lia|].
  cbn [sock_write_loop]. destruct (sent <? have)%nat eqn:E.
  - unfold sock_send. destruct (s_plan s) as [|[k|] plan] eqn:P.
    + destruct (length buff =? 0)%nat eqn:Z0; [lia|].
      specialize (IH (sent + length buff)%nat have (skipn (length buff) buff)
        (mksock (s_open s) (s_taken s ++ buff) []) Ho).
      rewrite skipn_all in *. specialize (IH ltac:(cbn; lia) ltac:(cbn; lia)).
      cbn [s_taken] in IH.
      destruct (sock_write_loop f _ _ _ _) as [[u|e|] s'].
      * rewrite IH, app_nil_r. reflexivity.
      * destruct IH as (p & q & Hpq & Hq & _). destruct p, q; try discriminate.
        contradiction.
      * exact IH.
    + set (n := Nat.min k (length buff)). destruct (n =? 0)%nat eqn:Z0.
      * assert (n = 0%nat) by lia. rewrite H. cbn [firstn s_taken].
        exists [], buff. cbn [app]. repeat split; auto.
        intros ->. cbn [length] in *. lia.
      * specialize (IH (sent + n)%nat have (skipn n buff)
          (mksock (s_open s) (s_taken s ++ firstn n buff) plan) Ho).
        rewrite skipn_length in IH. specialize (IH ltac:(lia) ltac:(lia)).
        cbn [s_taken] in IH.
        destruct (sock_write_loop f _ _ _ _) as [[u|e|] s'].
        -- rewrite IH, <- app_assoc, firstn_skipn. reflexivity.
        -- destruct IH as (p & q & Hpq & Hq & Ht & He).
           exists (firstn n buff ++ p), q. rewrite <- app_assoc, <- Hpq, firstn_skipn.
           rewrite app_assoc. auto.
        -- exact IH.
    + exists [], buff. cbn [app s_taken]. rewrite app_nil_r. repeat split; auto.
      intros ->. cbn [length] in *. lia.
  - unfold ret. destruct buff; [rewrite app_nil_r; reflexivity|cbn [length] in *; lia].
Qed.

Theorem sock_write_ok buff s : s_open s = true ->
  match sock_write buff s with
  | (Ok _, s') => s_taken s' = s_taken s ++ buff
  | (Raise e, s') => exists p q, buff = p ++ q /\ q <> [] /\ s_taken s' = s_taken s ++ p
      /\ (e = ETransport TT_END_OF_FILE \/ e = ETransport TT_UNKNOWN)
  | (Diverge, _) => False
  end.
Proof.
  intros Ho. unfold sock_write. rewrite Ho.
  apply sock_write_loop_ok; [assumption|lia|lia].
Qed.

(** * TSocket.open *)

Definition connect_outcome (a : addr_outcome) : Prop := a = ConnectFails \/ a = Connects.

Lemma open_loop_first pre post s : Forall (fun a => a = ConnectFails) pre ->
  open_loop (pre ++ Connects :: post) s
  = (Ok tt, mkopener (Some (o_next s + length pre)%nat)
                     ((o_next s + length pre)%nat :: o_live s)
                     (S (o_next s + length pre))).
Proof.
  intros H. revert s. induction H as [|a pre -> _ IH]; intros s; cbn [app open_loop length].
  - rewrite Nat.add_0_r. reflexivity.
  - rewrite IH. cbn [o_next o_live].
    replace (S (o_next s) + length pre)%nat with (o_next s + S (length pre))%nat by lia.
    reflexivity.
Qed.

Lemma open_loop_none l s : Forall (fun a => a = ConnectFails) l ->
  open_loop l s = (Raise (ETransport TT_NOT_OPEN),
                   mkopener (o_handle s) (o_live s) (o_next s + length l)).
Proof.
  intros H. revert s. induction H as [|a pre -> _ IH]; intros s; cbn [open_loop length].
  - rewrite Nat.add_0_r. destruct s. reflexivity.
  - rewrite IH. cbn [o_next o_live o_handle].
    replace (S (o_next s) + length pre)%nat with (o_next s + S (length pre))%nat by lia.
    reflexivity.
Qed.

(** * Whole histories *)

(** A series of reads, going on after an exception. *)
Fixpoint run_reads {T} (read : Z -> SM T (list byte)) (sizes : list Z) (t : T)
  : list (outcome (list byte)) * T :=
  match sizes with
  | [] => ([], t)
  | sz :: rest =>
      let (r, t1) := read sz t in
      let (rs, t2) := run_reads read rest t1 in
      (r :: rs, t2)
  end.

(** [results] are what reads of the given sizes may return on a connection
    carrying exactly [c]: pieces of [c] in order, each not empty and not longer
    than asked for, and an end-of-file report only when all of [c] is out. *)
Inductive delivers : list byte -> list Z -> list (outcome (list byte)) -> Prop :=
| delivers_nil : forall c, delivers c [] []
| delivers_some : forall d c sz szs rs, d <> [] -> Z.of_nat (length d) <= sz ->
    delivers c szs rs -> delivers (d ++ c) (sz :: szs) (Ok d :: rs)
| delivers_end : forall r sz szs rs,
    r = Ok [] \/ r = Raise EEOFError \/ r = Raise (ETransport TT_END_OF_FILE) ->
    delivers [] szs rs -> delivers [] (sz :: szs) (r :: rs).

Lemma stream_step T (R : T -> list byte -> Prop) read t c sz : stream R read -> R t c ->
  0 < sz -> exists c', R (snd (read sz t)) c' /\
    forall szs rs, delivers c' szs rs -> delivers c (sz :: szs) (fst (read sz t) :: rs).
Proof.
  intros HS HR Hsz. specialize (HS t c sz HR Hsz).
  destruct (read sz t) as [[d|e|] t']; cbn [fst snd].
  - destruct HS as (c' & -> & HR' & Hl & He). exists c'. split; [exact HR'|].
    intros szs rs D. destruct d as [|b d].
    + specialize (He eq_refl). cbn [app] in *. subst c'. apply delivers_end; auto.
    + apply delivers_some; auto. discriminate.
  - destruct HS as (-> & He & HR'). exists []. split; [exact HR'|].
    intros szs rs D. apply delivers_end; [|exact D]. destruct He as [-> | ->]; auto.
  - contradiction.
Qed.

Theorem run_reads_delivers T (R : T -> list byte -> Prop) read : stream R read ->
  forall sizes t c, R t c -> Forall (fun z => 0 < z) sizes ->
  delivers c sizes (fst (run_reads read sizes t)).
Proof.
  intros HS. induction sizes as [|sz szs IH]; intros t c HR HF; cbn [run_reads].
  - apply delivers_nil.
  - inversion HF as [|? ? Hsz HF']; subst.
    destruct (stream_step T R read t c sz HS HR Hsz) as (c' & HR' & K).
    destruct (read sz t) as [r t1]. cbn [fst snd] in *. specialize (IH t1 c' HR' HF').
    destruct (run_reads read szs t1) as [rs t2]. cbn [fst] in *. apply K, IH.
Qed.

(** A connection: bytes to come, and a log of every write attempted with a
    plan saying which writes and flushes fail. *)
Record conn := mkconn {
  cn_src : source;
  cn_log : list (list byte);
  cn_wfail : list (option exn);
  cn_ffail : list (option exn) }.

Definition fail_next (p : list (option exn)) : outcome unit :=
  match p with Some e :: _ => Raise e | _ => Ok tt end.

Definition conn_transport : transport conn := mktransport conn
  (fun sz c => let (r, s) := source_read sz (cn_src c) in
               (r, mkconn s (cn_log c) (cn_wfail c) (cn_ffail c)))
  (fun b c => (fail_next (cn_wfail c),
               mkconn (cn_src c) (cn_log c ++ [b]) (tl (cn_wfail c)) (cn_ffail c)))
  (fun c => (fail_next (cn_ffail c),
             mkconn (cn_src c) (cn_log c) (cn_wfail c) (tl (cn_ffail c)))).

Inductive top := ORead (sz : Z) | OWrite (b : list byte) | OFlush.

(** Run a history of operations, going on after exceptions; the results of
    the reads are collected. *)
Fixpoint run_ops {T} (V : transport T) (ops : list top) (s : T)
  : list (outcome (list byte)) * T :=
  match ops with
  | [] => ([], s)
  | ORead sz :: rest =>
      let (r, s1) := t_read V sz s in
      let (rs, s2) := run_ops V rest s1 in
      (r :: rs, s2)
  | OWrite b :: rest => run_ops V rest (snd (t_write V b s))
  | OFlush :: rest => run_ops V rest (snd (t_flush V s))
  end.

Fixpoint read_sizes (ops : list top) : list Z :=
  match ops with
  | [] => []
  | ORead sz :: rest => sz :: read_sizes rest
  | _ :: rest => read_sizes rest
  end.

(** The bytes written between one flush and the next. *)
Fixpoint flushed (acc : list byte) (ops : list top) : list (list byte) :=
  match ops with
  | [] => []
  | ORead _ :: rest => flushed acc rest
  | OWrite b :: rest => flushed (acc ++ b) rest
  | OFlush :: rest => acc :: flushed [] rest
  end.

Definition conn_rel (c : conn) (l : list byte) : Prop := src_data (cn_src c) = l.

Lemma conn_stream : stream conn_rel (t_read conn_transport).
Proof.
  intros c l sz HR Hsz. cbn [t_read conn_transport]. unfold conn_rel in *.
  pose proof (source_stream (cn_src c) l sz HR Hsz) as H.
  destruct (source_read sz (cn_src c)) as [[d|e|] s']; exact H.
Qed.

Lemma source_read_only sz (c : conn) : cn_log (snd (t_read conn_transport sz c)) = cn_log c.
Proof. cbn [t_read conn_transport]. destruct (source_read sz (cn_src c)). reflexivity. Qed.

Section History.
Variable V : transport (wrap conn).
Variable R : wrap conn -> list byte -> Prop.
Variable F : list byte -> list byte.
Variable P : list byte -> Prop.
Hypothesis VS : stream R (t_read V).
Hypothesis Vwbuf : forall sz s, w_wbuf (snd (t_read V sz s)) = w_wbuf s.
Hypothesis Vlog : forall sz s, cn_log (w_trans (snd (t_read V sz s))) = cn_log (w_trans s).
Hypothesis Vwrite : t_write V = w_write.
Hypothesis Vflush : forall s, P (w_wbuf s) ->
  w_wbuf (snd (t_flush V s)) = [] /\
  cn_log (w_trans (snd (t_flush V s))) = cn_log (w_trans s) ++ [F (w_wbuf s)].
Hypothesis RW : forall b s c, R s c -> R (snd (w_write b s)) c.
Hypothesis RF : forall s c, R s c -> R (snd (t_flush V s)) c.

Lemma run_ops_ok ops : forall s c, R s c -> Forall (fun z => 0 < z) (read_sizes ops) ->
  Forall P (flushed (w_wbuf s) ops) ->
  delivers c (read_sizes ops) (fst (run_ops V ops s))
  /\ cn_log (w_trans (snd (run_ops V ops s)))
     = cn_log (w_trans s) ++ map F (flushed (w_wbuf s) ops).
Proof.
  induction ops as [|[sz|b|] ops IH]; intros s c HR HF HP;
    cbn [run_ops read_sizes flushed map] in *.
  - split; [apply delivers_nil|]. rewrite app_nil_r. reflexivity.
  - inversion HF as [|? ? Hsz HF']; subst.
    destruct (stream_step _ R _ s c sz VS HR Hsz) as (c' & HR' & K).
    pose proof (Vwbuf sz s) as W. pose proof (Vlog sz s) as L.
    destruct (t_read V sz s) as [r s1]. cbn [fst snd] in *.
    rewrite <- W in HP. specialize (IH s1 c' HR' HF' HP).
    destruct (run_ops V ops s1) as [rs s2]. cbn [fst snd] in *.
    destruct IH as [D E]. split; [apply K, D|]. rewrite E, L, W. reflexivity.
  - rewrite Vwrite.
    specialize (IH (snd (w_write b s)) c (RW b s c HR) HF HP).
    destruct IH as [D E]. split; [exact D|]. rewrite E. reflexivity.
  - inversion HP as [|? ? Hp HP']; subst. destruct (Vflush s Hp) as [W L].
    specialize (IH (snd (t_flush V s)) c (RF s c HR) HF).
    rewrite W in IH. specialize (IH HP').
    destruct IH as [D E]. split; [exact D|]. rewrite E, L, <- app_assoc. reflexivity.
Qed.
End History.

(** The underlying write and flush of a flush, on the connection. *)
Lemma conn_flush_log b (c : conn) :
  let t' := snd ((t_write conn_transport b ;;; t_flush conn_transport) c) in
  cn_log t' = cn_log c ++ [b] /\ cn_src t' = cn_src c.
Proof.
  cbn zeta. unfold bind. cbn [t_write t_flush conn_transport].
  destruct (fail_next (cn_wfail c)); cbn [snd cn_log cn_src]; auto.
Qed.

Lemma buffered_history size ops d plan r wf ff rb wb :
  Forall (fun z => 0 < z) (read_sizes ops) ->
  let c0 := mkconn (mksource d plan r) [] wf ff in
  delivers (rb ++ d) (read_sizes ops)
    (fst (run_ops (buffered conn_transport size) ops (mkwrap c0 rb wb)))
  /\ cn_log (w_trans (snd (run_ops (buffered conn_transport size) ops (mkwrap c0 rb wb))))
     = flushed wb ops.
Proof.
  intros HF c0.
  pose proof (run_ops_ok (buffered conn_transport size) (buffered_rel conn_rel) (fun x => x)
    (fun _ => True)) as K. rewrite <- (map_id (flushed wb ops)).
  refine (K _ _ _ _ _ _ _ ops (mkwrap c0 rb wb) (rb ++ d) _ HF _).
  - apply buffered_stream, conn_stream.
  - intros sz s. cbn [t_read buffered]. unfold buffered_read, bind, rbuf_read, on_trans, set_rbuf.
    destruct (bytesio_read sz (w_rbuf s)) as [a b].
    destruct (negb _); [reflexivity|]. cbn [w_trans w_rbuf w_wbuf].
    destruct (t_read conn_transport _ _) as [[x|e|] t]; [|reflexivity|reflexivity].
    cbn [w_trans w_rbuf w_wbuf]. destruct (bytesio_read sz x). reflexivity.
  - intros sz s. cbn [t_read buffered]. unfold buffered_read, bind, rbuf_read, on_trans, set_rbuf.
    destruct (bytesio_read sz (w_rbuf s)) as [a b].
    destruct (negb _); [reflexivity|]. cbn [w_trans w_rbuf w_wbuf].
    pose proof (source_read_only (Z.max sz size) (w_trans s)) as L.
    destruct (t_read conn_transport _ _) as [[x|e|] t]; [|exact L|exact L].
    cbn [w_trans w_rbuf w_wbuf]. destruct (bytesio_read sz x). exact L.
  - reflexivity.
  - intros s _. cbn [t_flush buffered]. rewrite buffered_flush_eq.
    pose proof (conn_flush_log (w_wbuf s) (w_trans s)) as [L _].
    destruct ((t_write _ _ ;;; _) (w_trans s)) as [q t']. split; [reflexivity|exact L].
  - intros b s c HR. exact HR.
  - intros s c (c' & HR & ->). cbn [t_flush buffered]. rewrite buffered_flush_eq.
    pose proof (conn_flush_log (w_wbuf s) (w_trans s)) as [_ L].
    destruct ((t_write _ _ ;;; _) (w_trans s)) as [q t']. cbn [snd] in *.
    exists c'. split; [|reflexivity]. unfold conn_rel in *. cbn [w_trans]. rewrite L. exact HR.
  - exists d. split; reflexivity.
  - apply Forall_forall. trivial.
Qed.

Lemma framed_history ops ps r plan eof wf ff rb wb :
  Forall (fun z => 0 < z) (read_sizes ops) -> Forall frame_ok ps -> incomplete r ->
  Forall (fun p => Z.of_nat (length p) < 2 ^ 31) (flushed wb ops) ->
  let c0 := mkconn (mksource (concat (map frame ps) ++ r) plan eof) [] wf ff in
  delivers (rb ++ concat ps) (read_sizes ops)
    (fst (run_ops (framed conn_transport) ops (mkwrap c0 rb wb)))
  /\ cn_log (w_trans (snd (run_ops (framed conn_transport) ops (mkwrap c0 rb wb))))
     = map frame (flushed wb ops).
Proof.
  intros HF Hps Hr HP c0.
  pose proof (run_ops_ok (framed conn_transport) (framed_rel conn_rel) frame
    (fun p => Z.of_nat (length p) < 2 ^ 31)) as K.
  assert (RA : forall f sz have buff (t : conn),
    cn_log (snd (readAll_loop f (t_read conn_transport) sz have buff t)) = cn_log t).
  { induction f as [|f IH]; intros sz have buff t; cbn [readAll_loop]; [reflexivity|].
    destruct (have <? sz); [|reflexivity]. unfold bind.
    pose proof (source_read_only (sz - have) t) as L.
    destruct (t_read conn_transport _ t) as [[x|e|] t']; cbn [snd] in L; [|exact L|exact L].
    destruct (_ =? 0); [exact L|]. rewrite IH. exact L. }
  assert (RFr : forall s, w_wbuf (snd (readFrame conn_transport s)) = w_wbuf s
    /\ cn_log (w_trans (snd (readFrame conn_transport s))) = cn_log (w_trans s)).
  { intros s. unfold readFrame, bind, on_trans, set_rbuf.
    pose proof (RA (S (Z.to_nat 4)) 4 0 [] (w_trans s)) as L1.
    unfold readAll_t at 1 3. destruct (readAll_loop _ _ 4 _ _ (w_trans s)) as [[x|e|] t1];
      cbn [snd w_trans w_wbuf] in *; auto.
    unfold readAll_t.
    pose proof (RA (S (Z.to_nat (unpack_signed 4 x))) (unpack_signed 4 x) 0 [] t1) as L2.
    destruct (readAll_loop _ _ (unpack_signed 4 x) _ _ t1) as [[y|e|] t2];
      cbn [snd w_trans w_wbuf] in *; rewrite L2; auto. }
  refine (K _ _ _ _ _ _ _ ops (mkwrap c0 rb wb) (rb ++ concat ps) _ HF HP).
  - apply framed_stream, conn_stream.
  - intros sz s. cbn [t_read framed]. unfold framed_read, bind, rbuf_read.
    destruct (bytesio_read sz (w_rbuf s)) as [a b].
    destruct (negb _); [reflexivity|].
    pose proof (RFr (mkwrap (w_trans s) b (w_wbuf s))) as [L _].
    destruct (readFrame conn_transport _) as [[x|e|] t]; [|exact L|exact L].
    destruct (bytesio_read sz (w_rbuf t)). exact L.
  - intros sz s. cbn [t_read framed]. unfold framed_read, bind, rbuf_read.
    destruct (bytesio_read sz (w_rbuf s)) as [a b].
    destruct (negb _); [reflexivity|].
    pose proof (RFr (mkwrap (w_trans s) b (w_wbuf s))) as [_ L].
    destruct (readFrame conn_transport _) as [[x|e|] t]; [|exact L|exact L].
    destruct (bytesio_read sz (w_rbuf t)). exact L.
  - reflexivity.
  - intros s Hp. cbn [t_flush framed]. rewrite framed_flush_eq by exact Hp.
    pose proof (conn_flush_log (frame (w_wbuf s)) (w_trans s)) as [L _].
    destruct ((t_write _ _ ;;; _) (w_trans s)) as [q t']. split; [reflexivity|exact L].
  - intros b s c HR. exact HR.
  - intros s c (ps' & r' & HR & H1 & H2 & ->). cbn [t_flush framed].
    exists ps', r'.
    destruct (Z_lt_le_dec (Z.of_nat (length (w_wbuf s))) (2 ^ 31)) as [Hp|Hp].
    + rewrite framed_flush_eq by exact Hp.
      pose proof (conn_flush_log (frame (w_wbuf s)) (w_trans s)) as [_ L].
      destruct ((t_write _ _ ;;; _) (w_trans s)) as [q t']. cbn [snd] in *.
      unfold conn_rel in *. cbn [w_trans w_rbuf]. rewrite L. auto.
    + rewrite framed_flush_big by exact Hp. cbn [snd w_trans w_rbuf]. auto.
  - exists ps, r. cbn [w_trans w_rbuf]. repeat split; auto.
Qed.

(** * More on TSocket *)

(** The bytes a plan of successful sends takes. *)
Definition sent_total (plan : list send_result) : list unit :=
  concat (map (fun r => match r with Sent k => repeat tt k | SendError => [] end) plan).

Lemma sock_write_loop_plan plan : forall fuel sent have buff taken,
  Forall (fun r => exists k, r = Sent (S k)) plan ->
  (sent + length buff = have)%nat -> (length buff < fuel)%nat ->
  exists s', sock_write_loop fuel sent have buff (mksock true taken plan) = (Ok tt, s')
             /\ s_taken s' = taken ++ buff.
Proof.
  induction plan as [|r plan IH]; intros fuel sent have buff taken HP Hl HF;
    (destruct fuel as [|f]; [lia|]); cbn [sock_write_loop].
  - destruct (sent <? have)%nat eqn:E.
    + unfold sock_send. cbn [s_plan s_open s_taken].
      destruct (length buff =? 0)%nat eqn:Z0; [lia|]. rewrite skipn_all.
      destruct f as [|f]; [lia|]. cbn [sock_write_loop].
      destruct (sent + length buff <? have)%nat eqn:G; [lia|].
      eexists. split; reflexivity.
    + unfold ret. destruct buff; [|cbn [length] in *; lia].
      eexists. rewrite app_nil_r. split; reflexivity.
  - inversion HP as [|? ? [k ->] HP']; subst. destruct (sent <? _)%nat eqn:E.
    + unfold sock_send. cbn [s_plan s_open s_taken].
      destruct (Nat.min (S k) (length buff) =? 0)%nat eqn:Z0; [lia|].
      destruct (IH f (sent + Nat.min (S k) (length buff))%nat (sent + length buff)%nat
        (skipn (Nat.min (S k) (length buff)) buff)
        (taken ++ firstn (Nat.min (S k) (length buff)) buff) HP') as (s' & -> & Ht).
      * rewrite skipn_length. lia.
      * rewrite skipn_length. lia.
      * exists s'. split; [reflexivity|]. rewrite Ht, <- app_assoc, firstn_skipn. reflexivity.
    + unfold ret. destruct buff; [|cbn [length] in *; lia].
      eexists. rewrite app_nil_r. split; reflexivity.
Qed.

Lemma sock_write_complete : forall buff taken plan,
  Forall (fun r => exists k, r = Sent (S k)) plan ->
  exists s', sock_write buff (mksock true taken plan) = (Ok tt, s')
             /\ s_taken s' = taken ++ buff.
Proof.
  intros buff taken plan H. unfold sock_write. cbn [s_open].
  apply sock_write_loop_plan; [exact H|lia|lia].
Qed.

Lemma sock_write_loop_zero plan : forall fuel sent have buff taken rest,
  Forall (fun r => exists k, r = Sent (S k)) plan ->
  (sent + length buff = have)%nat -> (length buff < fuel)%nat ->
  (length (sent_total plan) < length buff)%nat ->
  exists p q s', sock_write_loop fuel sent have buff
                   (mksock true taken (plan ++ Sent 0 :: rest))
    = (Raise (ETransport TT_END_OF_FILE), s')
    /\ buff = p ++ q /\ length p = length (sent_total plan) /\ s_taken s' = taken ++ p.
Proof.
  induction plan as [|r plan IH]; intros fuel sent have buff taken rest HP Hl HF Ht;
    (destruct fuel as [|f]; [lia|]); cbn [sock_write_loop app].
  - destruct (sent <? have)%nat eqn:E; [|cbn in Ht; lia].
    unfold sock_send. cbn [s_plan s_open s_taken Nat.min firstn Nat.eqb].
    exists [], buff. eexists. repeat split.
  - inversion HP as [|? ? [k ->] HP']; subst.
    destruct (sent <? _)%nat eqn:E; [|lia].
    unfold sent_total in Ht. cbn [map concat] in Ht. rewrite app_length, repeat_length in Ht.
    fold (sent_total plan) in Ht.
    unfold sock_send. cbn [s_plan s_open s_taken].
    replace (Nat.min (S k) (length buff)) with (S k) by lia.
    change (S k =? 0)%nat with false. cbv iota.
    destruct (IH f (sent + S k)%nat (sent + length buff)%nat (skipn (S k) buff)
      (taken ++ firstn (S k) buff) rest HP') as (p & q & s' & -> & Hb & Hp & Hs).
    * rewrite skipn_length. lia.
    * rewrite skipn_length. lia.
    * rewrite skipn_length. lia.
    * exists (firstn (S k) buff ++ p), q, s'. split; [reflexivity|].
      rewrite <- app_assoc, <- Hb, firstn_skipn. split; [reflexivity|]. split.
      -- unfold sent_total. cbn [map concat]. rewrite !app_length, repeat_length, firstn_length.
         fold (sent_total plan). lia.
      -- rewrite Hs, app_assoc. reflexivity.
Qed.

Lemma sock_write_zero : forall buff taken plan rest,
  Forall (fun r => exists k, r = Sent (S k)) plan ->
  (length (sent_total plan) < length buff)%nat ->
  exists p q s', sock_write buff (mksock true taken (plan ++ Sent 0 :: rest))
    = (Raise (ETransport TT_END_OF_FILE), s')
    /\ buff = p ++ q /\ length p = length (sent_total plan) /\ s_taken s' = taken ++ p.
Proof.
  intros buff taken plan rest H L. unfold sock_write. cbn [s_open].
  apply sock_write_loop_zero; [exact H|lia|lia|exact L].
Qed.

Lemma filter_absent (h : nat) live : ~ In h live ->
  filter (fun k => negb (k =? h)%nat) live = live.
Proof.
  induction live as [|k live IH]; intros H; [reflexivity|]. cbn [filter].
  destruct (k =? h)%nat eqn:E.
  - exfalso. apply H. left. lia.
  - cbn [negb]. rewrite IH; [reflexivity|]. intros G. apply H. right. exact G.
Qed.

Lemma open_close : forall addrs live next,
  (forall k, In k live -> (k < next)%nat) ->
  ~ In OptionFails addrs ->
  exists r n h, snd (sock_open (Some addrs) (mkopener None live next)) = mkopener h r n
  /\ snd (sock_close (mkopener h r n)) = mkopener None live n.
Proof.
  intros addrs live next H2 H3. cbn [sock_open o_handle].
  revert next H2. induction addrs as [|a addrs IH]; intros next H2; cbn [open_loop].
  - exists live, next, None. split; reflexivity.
  - assert (H4 : ~ In OptionFails addrs) by (intros G; apply H3; right; exact G).
    destruct a.
    + exists live, next, None. split; reflexivity.
    + exfalso. apply H3. left. reflexivity.
    + cbn [o_handle o_live o_next].
      apply (IH H4 (S next)). intros k Hk. specialize (H2 k Hk). lia.
    + cbn [o_handle o_live o_next snd].
      exists (next :: live), (S next), (Some next). split; [reflexivity|].
      cbn [sock_close o_handle snd o_live o_next filter].
      rewrite Nat.eqb_refl. cbn [negb]. rewrite filter_absent; [reflexivity|].
      intros G. specialize (H2 next G). lia.
Qed.
