(** C23, C51, C52, C53: TZlibTransport and its factory. *)
From Coq Require Import ZArith List Bool Lia.
From Coq Require Import Init.Byte.
From Coq Require Import ZifyBool ZifyNat ZifyN.
From Verif Require Import Base Bytes Transport TransportFacts Zlib ZlibFacts.
Import ListNotations.
Open Scope Z_scope.

(** * C23 *)

(** Whatever the transport underneath delivers, whatever is written meanwhile,
    and although the user goes on after exceptions: the bytes handed out are no
    more than the limit, or some read was made when exactly the limit had been
    decompressed. *)
Theorem C23_limit : forall T D C (U : transport T) decompress tail compress cflush
    (d0 : D) (c0 : C) max fuel ops t,
  limits decompress tail -> 0 <= max ->
  let V := ztransport U decompress tail compress cflush max fuel in
  let z0 := z_init d0 c0 t in
  handed (fst (run_ops V ops z0)) <= max
  \/ exists ops1 sz ops2, ops = ops1 ++ ORead sz :: ops2
       /\ z_count (snd (run_ops V ops1 z0)) = max.
Proof.
  intros T D C U decompress tail compress cflush d0 c0 max fuel ops t HL Hm V z0.
  enough (G : forall ops z, z_count z <= max ->
    handed (fst (run_ops V ops z)) <= max - z_count z + Z.of_nat (length (z_rbuf z))
    \/ exists ops1 sz ops2, ops = ops1 ++ ORead sz :: ops2
         /\ z_count (snd (run_ops V ops1 z)) = max).
  { destruct (G ops z0 Hm) as [K|K]; [left|right; exact K]. cbn in K. lia. }
  clear ops. induction ops as [|o ops IH]; intros z Hz; [left; cbn; lia|].
  destruct o as [sz|b|].
  - destruct (Z.eq_dec (z_count z) max) as [E|N].
    { right. exists [], sz, ops. auto. }
    pose proof (z_read_count U decompress tail max fuel sz z HL N) as H.
    assert (ER : forall l, run_ops V (ORead sz :: l) z
      = let (r, s1) := z_read U decompress tail max fuel sz z in
        let (rs, s2) := run_ops V l s1 in (r :: rs, s2)) by reflexivity.
    rewrite ER. destruct (z_read U decompress tail max fuel sz z) as [r z1].
    destruct H as (H1 & H2 & _). destruct (IH z1 ltac:(lia)) as [K|(o1 & s & o2 & -> & K)].
    + left. destruct (run_ops V ops z1) as [rs z2]. cbn [fst] in *. destruct r; cbn [handed] in *; lia.
    + right. exists (ORead sz :: o1), s, o2. split; [reflexivity|]. rewrite ER.
      destruct (run_ops V o1 z1) as [rs z2]. exact K.
  - assert (ER : forall l, run_ops V (OWrite b :: l) z
      = run_ops V l (snd (z_write b z))) by reflexivity.
    rewrite ER. destruct (IH (snd (z_write b z)) Hz) as [K|(o1 & s & o2 & -> & K)];
      [left; exact K|].
    right. exists (OWrite b :: o1), s, o2. split; [reflexivity|]. rewrite ER. exact K.
  - assert (ER : forall l, run_ops V (OFlush :: l) z
      = run_ops V l (snd (z_flush U compress cflush z))) by reflexivity.
    rewrite ER. destruct (z_flush_count U compress cflush z) as [F1 F2].
    destruct (IH (snd (z_flush U compress cflush z)) ltac:(lia)) as [K|(o1 & s & o2 & -> & K)].
    + left. rewrite F1, F2 in K. exact K.
    + right. exists (OFlush :: o1), s, o2. split; [reflexivity|]. rewrite ER. exact K.
Qed.

(** Once more than the limit has been decompressed nothing new comes out: a read
    returns bytes already in the buffer or raises. *)
Theorem C23_after : forall T D C (U : transport T) decompress tail max fuel sz (z : zt T D C),
  limits decompress tail -> max < z_count z ->
  let (r, z') := z_read U decompress tail max fuel sz z in
  z_count z' = z_count z
  /\ handed [r] + Z.of_nat (length (z_rbuf z')) <= Z.of_nat (length (z_rbuf z)).
Proof.
  intros T D C U decompress tail max fuel sz z HL Hm.
  pose proof (z_read_count U decompress tail max fuel sz z HL ltac:(lia)) as H.
  destruct (z_read U decompress tail max fuel sz z) as [r z']. lia.
Qed.

(** A decompressor that keeps the contract: it copies, as far as allowed. *)
Definition copy (b : list byte) (m : Z) : SM (list byte) (list byte) :=
  fun d => if m <? 0 then (Raise EValueError, d)
           else if m =? 0 then (Ok b, [])
           else (Ok (firstn (Z.to_nat m) b), skipn (Z.to_nat m) b).

Example copy_limits : limits copy (fun d => d).
Proof.
  intros b m d. unfold copy. split.
  - intros H. replace (m <? 0) with true by lia. reflexivity.
  - destruct (m <? 0) eqn:A; [exact I|]. destruct (m =? 0) eqn:B.
    + split; [lia|reflexivity].
    + split; [rewrite firstn_length; lia|lia].
Qed.

Definition src : transport source := mktransport source source_read (fun _ => ret tt) (ret tt).
Definition zsrc (max : Z) : transport (zt source (list byte) unit) :=
  ztransport src copy (fun d => d) (fun b c => (b, c)) (fun c => ([], c)) max 10.
Definition zstart (data : list byte) (plan : list nat) : zt source (list byte) unit :=
  z_init [] tt (mksource data plan false).

(** The defect: a read that ends exactly on the limit lifts it for the next.
    With a limit of 2, two bytes and then any number more. *)
Theorem C23_unlimited_fails : forall n : nat, exists data plan ops,
  handed (fst (run_ops (zsrc 2) ops (zstart data plan))) = 2 + Z.of_nat n.
Proof.
  intros n. exists (x01 :: x02 :: repeat x03 n), [2%nat], [ORead 2; ORead (Z.of_nat n)].
  destruct n as [|n]; [reflexivity|].
  assert (E1 : z_read src copy (fun d => d) 2 10 2 (zstart (x01 :: x02 :: repeat x03 (S n)) [2%nat])
    = (Ok [x01; x02], mkzt (mksource (repeat x03 (S n)) [] false) [] [] [] tt 2 2 2 0 0))
    by reflexivity.
  cbn [run_ops zsrc ztransport t_read]. rewrite E1.
  set (k := S n). set (z := mkzt _ _ _ _ _ _ _ _ _ _).
  assert (E2 : z_read src copy (fun d => d) 2 10 (Z.of_nat k) z
    = (Ok (repeat x03 k),
       mkzt (mksource [] [] false) [] [] [] tt (2 + Z.of_nat k) (2 + Z.of_nat k)
         (2 + Z.of_nat k) 0 0)).
  { unfold z_read, bind, zrbuf_read, z. cbn [z_rbuf].
    assert (B0 : bytesio_read (Z.of_nat k) [] = ([], [])).
    { unfold bytesio_read. replace (Z.of_nat k <? 0) with false by lia.
      rewrite firstn_nil, skipn_nil. reflexivity. }
    rewrite B0. cbn [length]. change (0 <? Z.of_nat 0) with false. cbv iota.
    cbn [comp_loop]. unfold bind, readComp. cbn [z_trans t_read src].
    assert (S1 : source_read (Z.of_nat k) (mksource (repeat x03 k) [] false)
      = (Ok (repeat x03 k), mksource [] [] false)).
    { unfold source_read. cbn [src_data src_plan src_raises]. rewrite Nat2Z.id.
      change (repeat x03 k) with (x03 :: repeat x03 n). cbv iota beta zeta.
      replace (Nat.min k (length (x03 :: repeat x03 n))) with (length (x03 :: repeat x03 n))
        by (cbn [length]; rewrite repeat_length; unfold k; lia).
      rewrite firstn_all, skipn_all. reflexivity. }
    rewrite S1. cbn [z_dec app z_count]. change (2 - 2) with 0.
    unfold copy. change (0 <? 0) with false. change (0 =? 0) with true. cbv iota.
    cbn [z_rbuf z_wbuf z_comp z_in z_in_comp z_out z_out_comp app]. rewrite repeat_length.
    cbn [length]. replace (Z.of_nat 0 + Z.of_nat k =? 0) with false by (unfold k; lia).
    cbn [negb ret z_trans z_rbuf z_wbuf z_dec z_comp z_count z_in z_in_comp z_out z_out_comp].
    unfold bytesio_read. replace (Z.of_nat k <? 0) with false by lia.
    rewrite Nat2Z.id, firstn_all2, skipn_all2 by (rewrite repeat_length; lia). reflexivity. }
  rewrite E2. cbn [fst handed]. rewrite repeat_length. cbn [length]. lia.
Qed.

(** After SIZE_LIMIT the bytes decompressed by the failing read are gone, but
    the transport goes on: a user that reads again gets data with a hole. *)
Theorem C23_hole_refuted : exists data plan ops,
  fst (run_ops (zsrc 4) ops (zstart data plan))
  = [Ok [x01; x02; x03]; Raise (ETransport TT_SIZE_LIMIT); Raise (ETransport TT_SIZE_LIMIT);
     Ok [x06]]
  /\ data = [x01; x02; x03; x04; x05; x06].
Proof.
  exists [x01; x02; x03; x04; x05; x06], [3%nat], [ORead 3; ORead 3; ORead 3; ORead 3].
  split; [vm_compute; reflexivity|reflexivity].
Qed.

(** * C51: data comes back *)

(** Over a stream that raises at its end, compressed data that decompresses to
    less than the limit is a stream of the decompressed bytes: so everything
    that holds of streams (exact reads, buffering and framing above) holds here. *)
Theorem C51_stream : forall T D C (U : transport T) decompress tail compress cflush max
    (d0 : D) (c0 : C) inflate valid Sd Sc R,
  codec decompress tail compress cflush d0 c0 inflate valid Sd Sc ->
  stream R (t_read U) ->
  (forall t sz, R t [] -> 0 < sz ->
     exists e t', t_read U sz t = (Raise e, t') /\ eof_exn e /\ R t' []) ->
  forall fuel, stream (z_rel (C := C) max inflate valid Sd R fuel)
                 (z_read U decompress tail max fuel).
Proof.
  intros T D C U decompress tail compress cflush max d0 c0 inflate valid Sd Sc R HC HS HE fuel.
  exact (z_stream U decompress tail max compress cflush d0 c0 inflate valid Sd Sc HC R HS HE fuel).
Qed.

Definition collect : transport (list byte) :=
  mktransport _ (fun _ => ret []) (fun b t => (Ok tt, t ++ b)) (ret tt).

(** Write the pieces of each message and flush it. *)
Fixpoint send_msgs {T} (V : transport T) (ms : list (list (list byte))) : SM T unit :=
  match ms with
  | [] => ret tt
  | m :: r => (mapM_ (t_write V) m ;;; t_flush V ;;; send_msgs V r)%monad
  end.

(** Messages that are not empty, sent through one TZlibTransport and read back
    through another, in pieces of any sizes: exactly what was written, and then
    the end of the stream. *)
Theorem C51_round_trip : forall D C decompress tail compress cflush max (d0 : D) (c0 : C)
    inflate valid Sd Sc ms fuel0,
  codec decompress tail compress cflush d0 c0 inflate valid Sd Sc ->
  Forall (fun m => concat m <> []) ms ->
  Z.of_nat (length (concat (map (@concat byte) ms))) < max ->
  let V := ztransport collect decompress tail compress cflush max fuel0 in
  let res := send_msgs V ms (z_init d0 c0 []) in
  fst res = Ok tt /\
  forall plan fuel, let wire := z_trans (snd res) in (length wire < fuel)%nat ->
  z_rel (C := C) max inflate valid Sd source_rel fuel
    (z_init d0 c0 (mksource wire plan true)) (concat (map (@concat byte) ms)).
Proof.
  intros D C decompress tail compress cflush max d0 c0 inflate valid Sd Sc ms fuel0 HC HF HM V res.
  assert (W : forall l (z : zt (list byte) D C), mapM_ (t_write V) l z
    = (Ok tt, mkzt (z_trans z) (z_rbuf z) (z_wbuf z ++ concat l) (z_dec z) (z_comp z) (z_count z)
                (z_in z) (z_in_comp z) (z_out z) (z_out_comp z))).
  { induction l as [|b l IH]; intros z.
    - cbn. rewrite app_nil_r. destruct z; reflexivity.
    - cbn [mapM_ concat]. unfold bind. cbn [V ztransport t_write]. unfold z_write at 1.
      fold (mapM_ (t_write V)). rewrite IH. cbn. rewrite <- app_assoc. reflexivity. }
  assert (G : forall ms (z : zt (list byte) D C) i, Forall (fun m => concat m <> []) ms ->
    z_wbuf z = [] -> Sc (z_comp z) i (z_trans z) ->
    exists z', send_msgs V ms z = (Ok tt, z')
      /\ Sc (z_comp z') (i ++ concat (map (@concat byte) ms)) (z_trans z')).
  { clear ms HF HM res. induction ms as [|m ms IH]; intros z i HF Hw HK.
    - exists z. cbn. rewrite app_nil_r. auto.
    - inversion HF as [|? ? Hm HF']; subst. cbn [send_msgs]. unfold bind at 1. rewrite W, Hw.
      unfold bind at 1. cbn [V ztransport t_flush app].
      set (z1 := mkzt (z_trans z) _ _ _ _ _ _ _ _ _).
      destruct (z_flush_ok collect decompress tail compress cflush d0 c0 inflate valid Sd Sc HC
        z1 i (z_trans z) HK Hm) as (b & k & o1 & o2 & _ & K & ->).
      unfold bind, on_z. cbn [z_trans collect t_write t_flush ret].
      fold V. edestruct IH as (z' & E & S'); [exact HF'| | |].
      3:{ exists z'. split; [exact E|]. cbn [map concat]. rewrite app_assoc. exact S'. }
      + reflexivity.
      + exact K. }
  destruct (G ms (z_init d0 c0 []) [] HF eq_refl (co_cinit HC)) as (z' & E & K).
  subst res. rewrite E. split; [reflexivity|]. intros plan fuel wire Hf. cbn [snd] in wire.
  cbn [app] in K. destruct (co_valid HC _ _ _ K) as [K1 K2].
  exists [], wire, (concat (map (@concat byte) ms)). cbn [z_trans z_dec z_count z_rbuf z_init app].
  split; [reflexivity|]. split; [exact (co_dinit HC)|]. split; [exact K1|].
  unfold wire. rewrite K2, (co_nil HC). repeat split; auto.
Qed.

(** At the end of a transport that returns nothing instead of raising (as
    TMemoryBuffer and TFileObjectTransport do) a read never ends; nor does a
    read of no bytes, even with data to come. *)
Theorem C51_spin_fails : forall D C decompress tail max (z : zt source D C) sz,
  z_rbuf z = [] -> src_raises (z_trans z) = false ->
  tail (z_dec z) = [] -> decompress [] (max - z_count z) (z_dec z) = (Ok [], z_dec z) ->
  src_data (z_trans z) = [] \/ sz = 0 ->
  forall fuel, fst (z_read src decompress tail max fuel sz z) = Diverge.
Proof.
  intros D C decompress tail max z sz Hb Hr Ht Hd Hs fuel.
  unfold z_read, bind, zrbuf_read. rewrite Hb.
  assert (B0 : bytesio_read sz [] = ([], [])).
  { unfold bytesio_read. destruct (sz <? 0); [reflexivity|]. rewrite firstn_nil, skipn_nil. reflexivity. }
  rewrite B0. cbn [length]. change (0 <? Z.of_nat 0) with false. cbv beta iota zeta.
  enough (G : forall (z : zt source D C), z_rbuf z = [] -> src_raises (z_trans z) = false ->
    tail (z_dec z) = [] -> decompress [] (max - z_count z) (z_dec z) = (Ok [], z_dec z) ->
    src_data (z_trans z) = [] \/ sz = 0 ->
    fst (comp_loop src decompress tail max fuel sz z) = Diverge).
  { match goal with |- context [comp_loop ?a ?b ?c ?d ?e ?f ?x] =>
      specialize (G x eq_refl Hr Ht Hd Hs); destruct (comp_loop a b c d e f x) as [[u|y|] z2] end;
      [discriminate G|discriminate G|reflexivity]. }
  clear. induction fuel as [|n IH]; intros z Hb Hr Ht Hd Hs; [reflexivity|].
  cbn [comp_loop]. unfold bind, readComp.
  assert (S0 : exists s, source_read sz (z_trans z) = (Ok [], s) /\ src_raises s = false
    /\ (src_data s = [] \/ sz = 0)).
  { unfold source_read. rewrite Hr. destruct Hs as [Hs | ->].
    - rewrite Hs. eauto.
    - destruct (src_data (z_trans z)) eqn:E; [eauto|]. cbn [Z.to_nat Nat.min].
      eexists. split; [reflexivity|]. cbn. auto. }
  destruct S0 as (s & E & Hr' & Hs'). cbn [src t_read]. rewrite E, Ht. cbn [app].
  rewrite Hd, Ht, Hb. cbn [length app]. change (negb (Z.of_nat 0 + Z.of_nat 0 =? 0)) with false.
  cbv iota. apply IH; cbn; auto. rewrite Z.add_0_r. exact Hd.
Qed.

(** Flushing with nothing written is a TypeError whenever zlib has bytes of its
    own to flush, and those bytes are lost: the compression object has moved
    on. *)
Theorem C51_empty_flush_fails : forall T D C (U : transport T) compress cflush
    (z : zt T D C) t c,
  z_wbuf z = [] -> cflush (z_comp z) = (t, c) -> t <> [] ->
  exists z', z_flush U compress cflush z = (Raise ETypeError, z')
    /\ z_comp z' = c /\ z_trans z' = z_trans z.
Proof.
  intros T D C U compress cflush z t c Hw Hc Ht. unfold z_flush. rewrite Hw. cbn [length].
  change (0 <? Z.of_nat 0) with false. cbv iota. rewrite Hc. cbn [length].
  replace (0 <? Z.of_nat 0 + Z.of_nat (length t)) with true
    by (destruct t; [congruence|cbn [length]; lia]).
  eexists. split; [reflexivity|]. split; reflexivity.
Qed.

(** A flush whose write fails has already dropped the data. *)
Theorem C51_failed_flush : forall T D C (U : transport T) compress cflush (z z' : zt T D C) e,
  (forall t, exists t', t_flush U t = (Ok tt, t')) ->
  z_flush U compress cflush z = (Raise e, z') -> z_wbuf z' = [].
Proof.
  intros T D C U compress cflush z z' e HF E. unfold z_flush in E.
  destruct (if 0 <? Z.of_nat (length (z_wbuf z)) then compress (z_wbuf z) (z_comp z)
            else ([], z_comp z)) as [zb c1]. destruct (cflush c1) as [t c2].
  destruct (0 <? Z.of_nat (length zb) + Z.of_nat (length t)).
  - destruct (0 <? Z.of_nat (length (z_wbuf z))).
    + unfold bind, on_z in E. cbn [z_trans] in E.
      destruct (t_write U (zb ++ t) (z_trans z)) as [[[]|x|] t1].
      * cbn [z_trans] in E. destruct (HF t1) as (t2 & E2). rewrite E2 in E. discriminate E.
      * injection E as _ <-. reflexivity.
      * discriminate E.
    + injection E as _ <-. reflexivity.
  - unfold on_z in E. cbn [z_trans] in E. destruct (HF (z_trans z)) as (t2 & E2).
    rewrite E2 in E. discriminate E.
Qed.

(** A codec that keeps every clause: a byte is escaped by 01, and a flush writes
    00. *)
Fixpoint toy_inflate (l : list byte) : list byte :=
  match l with
  | x01 :: r => match r with b :: r' => b :: toy_inflate r' | [] => [] end
  | _ :: r => toy_inflate r
  | [] => []
  end.

Definition toy_compress (w : list byte) (c : unit) : list byte * unit :=
  (flat_map (fun b => [x01; b]) w, c).
Definition toy_cflush (c : unit) : list byte * unit := ([x00], c).
(** The state: what has been read, and the tail. *)
Definition toy_dec (b : list byte) (m : Z) : SM (list byte * list byte) (list byte) :=
  fun d =>
    let new := skipn (length (toy_inflate (fst d))) (toy_inflate (fst d ++ b)) in
    if m <? 0 then (Raise EValueError, d)
    else if (m =? 0) || (Z.of_nat (length new) <=? m) then (Ok new, (fst d ++ b, []))
    else (Ok (firstn (Z.to_nat m) new), (fst d, b)).

Lemma toy_mono a b : exists x, toy_inflate (a ++ b) = toy_inflate a ++ x.
Proof.
  enough (G : forall n a, (length a <= n)%nat ->
    exists x, toy_inflate (a ++ b) = toy_inflate a ++ x) by (apply (G (length a)); lia).
  clear a. induction n as [|n IH]; intros a H.
  - destruct a; [|cbn in H; lia]. exists (toy_inflate b). reflexivity.
  - destruct a as [|a0 a]; [exists (toy_inflate b); reflexivity|]. cbn in H.
    destruct a0; cbn; try (apply IH; lia).
    destruct a as [|a1 a]; [eexists; reflexivity|]. cbn in *.
    destruct (IH a ltac:(lia)) as (x & ->). eauto.
Qed.

Lemma toy_whole w b : toy_inflate (flat_map (fun b => [x01; b]) w ++ b) = w ++ toy_inflate b.
Proof. induction w as [|a w IH]; [reflexivity|]. cbn. rewrite IH. reflexivity. Qed.

Example toy_codec : codec toy_dec snd toy_compress toy_cflush ([], []) tt toy_inflate
  (fun _ => True) (fun d c => d = (c, []))
  (fun _ i o => forall b, toy_inflate (o ++ b) = i ++ toy_inflate b).
Proof.
  constructor; auto.
  - intros a b _. apply toy_mono.
  - intros d c ->. reflexivity.
  - intros d c b x m -> _ Hx Hm. exists (c ++ b, []). split; [|reflexivity]. unfold toy_dec.
    cbn [fst]. rewrite Hx, skipn_exact by reflexivity.
    replace (m <? 0) with false by lia.
    replace ((m =? 0) || (Z.of_nat (length x) <=? m)) with true by lia. reflexivity.
  - intros k i o H. split; [exact I|]. specialize (H []). rewrite !app_nil_r in H. exact H.
  - intros k i o w H Hw. cbn. split.
    + intros b. rewrite <- !app_assoc, H, toy_whole. reflexivity.
    + intros K. apply app_eq_nil in K. destruct K as [_ K]. discriminate K.
  - intros k i o H. cbn. intros b. rewrite <- app_assoc, H. reflexivity.
Qed.

Example toy_limits : limits toy_dec snd.
Proof.
  intros b m d. unfold toy_dec. split.
  - intros H. replace (m <? 0) with true by lia. reflexivity.
  - destruct (m <? 0) eqn:A; [exact I|]. cbv zeta.
    destruct ((m =? 0) || _) eqn:B.
    + split; [lia|reflexivity].
    + split; [rewrite firstn_length; lia|lia].
Qed.

(** Two messages, one with bytes that need care, over a source that gives one
    byte at a time. *)
Example C51_case :
  let V := ztransport collect toy_dec snd toy_compress toy_cflush 100 5 in
  let wire := z_trans (snd (send_msgs V [[[x01]; [x00; x02]]; [[x05]]] (z_init ([], []) tt []))) in
  let W := ztransport src toy_dec snd toy_compress toy_cflush 100 20 in
  fst (run_ops W [ORead 2; ORead 3; ORead 1; ORead 1; ORead 1]
         (z_init ([], []) tt (mksource wire (repeat 1%nat 40) true)))
  = [Ok [x01]; Ok [x00]; Ok [x02]; Ok [x05]; Raise (ETransport TT_END_OF_FILE)].
Proof. vm_compute. reflexivity. Qed.

Example C51_spin_case : forall fuel,
  fst (z_read src toy_dec snd 100 fuel 4
         (z_init (T := source) (C := unit) ([], []) tt (mksource [] [] false))) = Diverge.
Proof. apply C51_spin_fails; auto. Qed.

Example C51_empty_flush_case :
  fst (z_flush collect toy_compress toy_cflush (z_init (D := unit) tt tt [])) = Raise ETypeError.
Proof. reflexivity. Qed.

(** * C52: the statistics *)

(** Inbound, the counters are the wrong way round: after any history
    [bytes_in_comp], which getCompRatio divides by [bytes_in] and documents as
    compressed over uncompressed, is the number of decompressed bytes. *)
Theorem C52_inbound : forall T D C (U : transport T) decompress tail compress cflush
    (d0 : D) (c0 : C) max fuel ops t,
  let z := snd (run_ops (ztransport U decompress tail compress cflush max fuel) ops
                  (z_init d0 c0 t)) in
  z_in_comp z = z_count z.
Proof.
  intros T D C U decompress tail compress cflush d0 c0 max fuel ops t.
  set (V := ztransport U decompress tail compress cflush max fuel).
  enough (G : forall ops z, z_in_comp z = z_count z ->
    z_in_comp (snd (run_ops V ops z)) = z_count (snd (run_ops V ops z)))
    by (apply (G ops); reflexivity).
  clear ops. induction ops as [|[sz|b|] ops IH]; intros z Hz; [exact Hz| | |].
  - cbn [run_ops]. change (t_read V sz z) with (z_read U decompress tail max fuel sz z).
    assert (Rd : forall (z : zt T D C), z_in_comp z = z_count z ->
      z_in_comp (snd (readComp U decompress tail max sz z))
      = z_count (snd (readComp U decompress tail max sz z))).
    { clear. intros z Hz. unfold readComp.
      destruct (t_read U sz (z_trans z)) as [[b0|e|] t]; try exact Hz.
      destruct (decompress _ _ (z_dec z)) as [[o|e|] d]; try exact Hz.
      destruct (tail d); cbn; [lia|exact Hz]. }
    assert (Lp : forall n (z : zt T D C), z_in_comp z = z_count z ->
      z_in_comp (snd (comp_loop U decompress tail max n sz z))
      = z_count (snd (comp_loop U decompress tail max n sz z))).
    { induction n as [|n IHn]; intros z1 H1; [exact H1|]. cbn [comp_loop]. unfold bind.
      specialize (Rd z1 H1). destruct (readComp U decompress tail max sz z1) as [[[]|e|] z2];
        try exact Rd. apply IHn. exact Rd. }
    assert (K : z_in_comp (snd (z_read U decompress tail max fuel sz z))
      = z_count (snd (z_read U decompress tail max fuel sz z))).
    { unfold z_read, bind, zrbuf_read. destruct (bytesio_read sz (z_rbuf z)) as [a b].
      destruct (0 <? Z.of_nat (length a)); [exact Hz|].
      match goal with |- context [comp_loop U decompress tail max fuel sz ?x] =>
        specialize (Lp fuel x Hz); destruct (comp_loop U decompress tail max fuel sz x)
          as [[u|e|] z2] end; try exact Lp.
      destruct (bytesio_read sz (z_rbuf z2)) as [a2 b2]. exact Lp. }
    destruct (z_read U decompress tail max fuel sz z) as [r z1]. specialize (IH z1 K).
    destruct (run_ops V ops z1) as [rs z2]. exact IH.
  - apply IH. exact Hz.
  - cbn [run_ops]. apply IH. cbn [V ztransport t_flush]. unfold z_flush.
    destruct (if 0 <? Z.of_nat (length (z_wbuf z)) then compress (z_wbuf z) (z_comp z)
              else ([], z_comp z)) as [zb c1]. destruct (cflush c1) as [zt0 c2].
    destruct (0 <? Z.of_nat (length zb) + Z.of_nat (length zt0)).
    + destruct (0 <? Z.of_nat (length (z_wbuf z))); [|exact Hz].
      unfold bind, on_z. cbn [z_trans]. destruct (t_write U _ (z_trans z)) as [[[]|e|] t1];
        try exact Hz. cbn [z_trans]. destruct (t_flush U t1) as [r t']. exact Hz.
    + unfold on_z. cbn [z_trans]. destruct (t_flush U (z_trans z)) as [r t']. exact Hz.
Qed.

(** So 3 bytes carried in 7 have an inbound "compression ratio" (compressed over
    uncompressed) of 3/7, where outbound the same data has 7/3. *)
Theorem C52_ratio_refuted : exists ops wire,
  let W := ztransport src toy_dec snd toy_compress toy_cflush 100 20 in
  let z := snd (run_ops W ops (z_init ([], []) tt (mksource wire [] true))) in
  (z_in_comp z, z_in z) = (3, 7) /\
  let V := ztransport collect toy_dec snd toy_compress toy_cflush 100 5 in
  let w := snd (run_ops V [OWrite [x07; x08; x09]; OFlush] (z_init ([], []) tt [])) in
  wire = z_trans w /\ (z_out_comp w, z_out w) = (7, 3).
Proof.
  exists [ORead 9], [x01; x07; x01; x08; x01; x09; x00]. vm_compute. auto.
Qed.

(** Outbound the counters are what getCompRatio says: a flush of data adds its
    length to [bytes_out] and the length of what is written to
    [bytes_out_comp]. *)
Theorem C52_outbound : forall T D C (U : transport T) compress cflush (z z' : zt T D C) r,
  z_wbuf z <> [] -> (forall w c, fst (compress w c) ++ fst (cflush (snd (compress w c))) <> []) ->
  z_flush U compress cflush z = (r, z') ->
  exists b, z_out z' = z_out z + Z.of_nat (length (z_wbuf z))
    /\ z_out_comp z' = z_out_comp z + Z.of_nat (length b)
    /\ (r, z_trans z') = (t_write U b ;;; t_flush U)%monad (z_trans z).
Proof.
  intros T D C U compress cflush z z' r Hw Hne E. unfold z_flush in E.
  replace (0 <? Z.of_nat (length (z_wbuf z))) with true in E
    by (destruct (z_wbuf z); [congruence|cbn [length]; lia]).
  specialize (Hne (z_wbuf z) (z_comp z)).
  destruct (compress (z_wbuf z) (z_comp z)) as [zb c1]. cbn [fst snd] in Hne.
  destruct (cflush c1) as [t c2]. cbn [fst] in Hne.
  replace (0 <? Z.of_nat (length zb) + Z.of_nat (length t)) with true in E
    by (destruct zb; destruct t; try (cbn [length]; lia); exfalso; apply Hne; reflexivity).
  exists (zb ++ t). unfold bind, on_z in E. cbn [z_trans] in E. unfold bind.
  rewrite app_length.
  destruct (t_write U (zb ++ t) (z_trans z)) as [[[]|e|] t1].
  - cbn [z_trans] in E. destruct (t_flush U t1) as [r2 t2]. injection E as <- <-. cbn.
    repeat split; lia.
  - injection E as <- <-. cbn. repeat split; lia.
  - injection E as <- <-. cbn. repeat split; lia.
Qed.

(** Closing and opening again gives a transport like a new one, whatever its
    history: no data, limit or statistics of the connection before. *)
Theorem C52_reopen : forall T D C (dec_init : D) (comp_init : C) (z : zt T D C),
  z_open (z_close dec_init comp_init z) = z_init dec_init comp_init (z_trans z).
Proof. intros T D C dec_init comp_init z. destruct z. reflexivity. Qed.

(** Opening alone does not: what was decompressed and not read on the old
    connection is read on the new one (defect). *)
Theorem C52_open_stale : forall T D C (U : transport T) decompress tail max_size fuel
    (z : zt T D C) sz, z_rbuf z <> [] -> 0 < sz ->
  fst (z_read U decompress tail max_size fuel sz (z_open z)) = Ok (firstn (Z.to_nat sz) (z_rbuf z))
  /\ firstn (Z.to_nat sz) (z_rbuf z) <> [].
Proof.
  intros T D C U decompress tail max_size fuel z sz Hz Hsz.
  assert (Hn : firstn (Z.to_nat sz) (z_rbuf z) <> []).
  { destruct (z_rbuf z) as [|x r]; [congruence|]. destruct (Z.to_nat sz) eqn:E; [lia|discriminate]. }
  split; [|exact Hn]. unfold z_read, bind, zrbuf_read, bytesio_read. cbn [z_rbuf z_open].
  destruct (Z.ltb_spec sz 0) as [?|_]; [lia|]. cbv iota beta.
  replace (0 <? Z.of_nat (length (firstn (Z.to_nat sz) (z_rbuf z)))) with true; [reflexivity|].
  destruct (firstn (Z.to_nat sz) (z_rbuf z)); [congruence|cbn [length]; lia].
Qed.

(** * C53: the factory's cache *)

(** What the calls of one thread return, each run without interruption. *)
Fixpoint get_all (calls : list (nat * Z)) (f : factory) : list (option zobj) :=
  match calls with
  | [] => []
  | (t, m) :: r => let (z, f') := getTransport t m f in z :: get_all r f'
  end.

(** Without interruption every call returns a TZlibTransport for the transport
    it was given. *)
Theorem C53_sequential : forall calls,
  Forall2 (fun c r => exists z, r = Some z /\ zo_trans z = fst c) calls
    (get_all calls factory_init).
Proof.
  intros calls.
  enough (G : forall f, (forall t, f_trans f = Some t -> exists z, f_z f = Some z /\ zo_trans z = t) ->
    Forall2 (fun c r => exists z, r = Some z /\ zo_trans z = fst c) calls (get_all calls f))
    by (apply G; intros t K; discriminate K).
  induction calls as [|[t m] l IH]; intros f Hf; cbn [get_all]; [constructor|].
  unfold getTransport. destruct (same_trans t (f_trans f)) eqn:E.
  - constructor; [|apply IH; exact Hf]. destruct (f_trans f) as [t'|]; [|discriminate E].
    cbn in E. apply Nat.eqb_eq in E. subst t'. exact (Hf t eq_refl).
  - constructor; [eexists; split; reflexivity|]. apply IH. cbn. intros t' K.
    injection K as <-. eexists. split; reflexivity.
Qed.

(** Input and output of one connection share the object, if nothing comes
    between. *)
Theorem C53_shared : forall t m m' f,
  exists z, let (r, f1) := getTransport t m f in
  r = z /\ fst (getTransport t m' f1) = z.
Proof.
  intros t m m' f. unfold getTransport. destruct (same_trans t (f_trans f)) eqn:E.
  - exists (f_z f). rewrite E. auto.
  - eexists. split; [reflexivity|]. cbn. rewrite Nat.eqb_refl. reflexivity.
Qed.

(** But a cached object is returned whatever the limit asked for. *)
Theorem C53_limit_refuted : exists calls,
  get_all calls factory_init = [Some (mkzobj 0 7 1000); Some (mkzobj 0 7 1000)]
  /\ map snd calls = [1000; 10].
Proof. exists [(7%nat, 1000); (7%nat, 10)]. split; reflexivity. Qed.

(** Two threads sharing the factory, each with its own connection and asking for
    its input and its output transport, as TThreadedServer does: the second
    thread's output transport can be the one of the first's connection. *)
Theorem C53_race_refuted : exists sched,
  let ths := [mkthread [(1%nat, 10); (1%nat, 10)] None []; mkthread [(2%nat, 10); (2%nat, 10)] None []] in
  exists ths', fst (run_threads sched ths factory_init) = ths'
    /\ nth_error ths' 1 = Some (mkthread [] None
         [(2%nat, Some (mkzobj 1 2 10)); (2%nat, Some (mkzobj 0 1 10))]).
Proof.
  (* thread 0 stops between its two assignments, thread 1 completes a call,
     thread 0 goes on, thread 1 calls again *)
  exists [0; 0; 0; 0; 1; 1; 1; 1; 1; 0; 1; 1; 1]%nat. eexists. split; [vm_compute; reflexivity|].
  vm_compute. reflexivity.
Qed.

(** Axioms used. *)
Print Assumptions C23_limit.
Print Assumptions C23_after.
Print Assumptions C23_unlimited_fails.
Print Assumptions C23_hole_refuted.
Print Assumptions C51_stream.
Print Assumptions C51_round_trip.
Print Assumptions C51_spin_fails.
Print Assumptions C51_empty_flush_fails.
Print Assumptions C51_failed_flush.
Print Assumptions C52_inbound.
Print Assumptions C52_ratio_refuted.
Print Assumptions C52_outbound.
Print Assumptions C52_reopen.
Print Assumptions C52_open_stale.
Print Assumptions C53_sequential.
Print Assumptions C53_shared.
Print Assumptions C53_limit_refuted.
Print Assumptions C53_race_refuted.
