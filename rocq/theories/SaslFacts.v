(** Proofs about TSaslClientTransport. *)
From Coq Require Import ZArith List Bool Lia ZifyBool ZifyNat.
From Coq Require Import Init.Byte.
From Verif Require Import Base Bytes BytesFacts Transport TransportFacts.
Import ListNotations.
Open Scope Z_scope.

(** A negotiation message: status byte, four-byte length, body. *)
Definition sasl_msg (status : Z) (body : list byte) : list byte :=
  be_bytes 1 status ++ be_bytes 4 (Z.of_nat (length body)) ++ body.

Section Read.
Context {T : Type}.
Variable U : transport T.
Variable R : T -> list byte -> Prop.
Hypothesis HS : stream R (t_read U).
Variable unwrap : list byte -> outcome (list byte).

(** The connection carries frames of encoded payloads the library accepts. *)
Definition sasl_frame_ok (ep : list byte * list byte) : Prop :=
  unwrap (fst ep) = Ok (snd ep) /\ snd ep <> [] /\ Z.of_nat (length (fst ep)) < 2 ^ 31.

Definition sasl_rel (s : wrap T) (c : list byte) : Prop :=
  exists eps r, R (w_trans s) (concat (map (fun ep => frame (fst ep)) eps) ++ r)
    /\ Forall sasl_frame_ok eps /\ incomplete r /\ c = w_rbuf s ++ concat (map snd eps).

Lemma sasl_read_frame_eq s :
  sasl_read_frame U unwrap s
  = match readFrame U s with
    | (Ok _, s') =>
        match unwrap (w_rbuf s') with
        | Ok d => (Ok tt, mkwrap (w_trans s') d (w_wbuf s'))
        | Raise e => (Raise e, mkwrap (w_trans s') (w_rbuf s) (w_wbuf s))
        | Diverge => (Diverge, mkwrap (w_trans s') (w_rbuf s) (w_wbuf s))
        end
    | (Raise e, s') => (Raise e, s')
    | (Diverge, s') => (Diverge, s')
    end.
Proof.
  destruct s as [t rb wb].
  unfold sasl_read_frame, readFrame, bind, on_trans, set_rbuf, lift.
  cbn [w_trans w_rbuf w_wbuf].
  destruct (readAll_t (t_read U) 4 t) as [[h|e|] t1]; [|reflexivity|reflexivity].
  cbn [w_trans w_rbuf w_wbuf].
  destruct (readAll_t (t_read U) (unpack_signed 4 h) t1) as [[b|e|] t2];
    [|reflexivity|reflexivity].
  cbn [w_trans w_rbuf w_wbuf]. destruct (unwrap b); reflexivity.
Qed.

Theorem sasl_stream : stream sasl_rel (sasl_read U unwrap).
Proof.
  intros [t rb wb] c sz (eps & r & HR & Hps & Hr & ->) Hsz. cbn [w_trans w_rbuf] in *.
  unfold sasl_read, bind, rbuf_read at 1. cbn [w_trans w_rbuf w_wbuf].
  destruct (bytesio_split sz rb Hsz) as (a & b & -> & -> & Hl & He).
  destruct (Z.of_nat (length a) =? 0) eqn:E; cbn [negb].
  - destruct a; [|cbn [length] in E; lia]. specialize (He eq_refl).
    cbn [app] in He. subst b. cbn [app]. rewrite sasl_read_frame_eq.
    destruct eps as [|[e0 p] eps].
    + cbn [map concat app] in HR.
      destruct (readFrame_short U R HS t [] wb r HR Hr) as (e & t' & -> & He' & HR').
      cbn [map concat]. split; [reflexivity|]. split; [exact He'|].
      exists [], []. cbn [map concat app w_trans w_rbuf]. repeat split; auto.
      apply incomplete_nil.
    + inversion Hps as [|? ? (Hp0 & Hp1 & Hp2) Hps']; subst. cbn [fst snd] in *.
      cbn [map concat fst] in HR. rewrite <- app_assoc in HR.
      destruct (readFrame_ok U R HS t [] wb e0 _ HR Hp2) as (t' & -> & HR').
      cbn [w_trans w_rbuf w_wbuf]. rewrite Hp0.
      unfold rbuf_read. cbn [w_trans w_rbuf w_wbuf].
      destruct (bytesio_split sz p Hsz) as (a2 & b2 & E2 & E3 & Hl2 & He2).
      rewrite E2. cbn [map concat snd]. exists (b2 ++ concat (map snd eps)). split.
      { rewrite E3 at 1. rewrite app_assoc. reflexivity. }
      split; [|split; [exact Hl2|]].
      * exists eps, r. cbn [w_trans w_rbuf]. auto.
      * intros ->. exfalso. apply Hp1, He2. reflexivity.
  - unfold ret. exists (b ++ concat (map snd eps)). rewrite app_assoc. split; [reflexivity|].
    split; [exists eps, r; cbn [w_trans w_rbuf]; auto|]. split; [exact Hl|].
    intros ->. cbn in E. lia.
Qed.

End Read.

(** ** Negotiation *)

Section Negotiate.
Context {T : Type}.
Variable U : transport T.
Variable R : T -> list byte -> Prop.
Hypothesis HS : stream R (t_read U).

Lemma recv_ok t c : R t c ->
  match recv_sasl_msg U t with
  | (Ok (status, body), t') => exists c', c = sasl_msg status body ++ c' /\ R t' c'
                                         /\ 0 <= status < 256
  | (Raise e, _) => eof_exn e
  | (Diverge, _) => False
  end.
Proof.
  intros HR. unfold recv_sasl_msg, bind.
  pose proof (readAll_exact T R (t_read U) t c 5 HS HR) as H.
  destruct (readAll_t (t_read U) 5 t) as [[h|e|] t1]; cbn [exact_read] in H;
    [|tauto|contradiction].
  destruct H as (c1 & -> & HR1 & Hl).
  assert (L : length h = 5%nat) by lia. unfold unpack_unsigned.
  destruct h as [|h0 h]; [discriminate|]. cbn [firstn skipn]. cbn [length] in L.
  assert (L4 : length h = 4%nat) by lia.
  pose proof (be_val_range h) as Hr. rewrite L4 in Hr.
  pose proof (be_val_range [h0]) as Hr0. change (256 ^ Z.of_nat (length [h0])) with 256 in Hr0.
  pose proof (be_bytes_be_val h) as Eh. rewrite L4 in Eh.
  pose proof (be_bytes_be_val [h0]) as E0. cbn [length] in E0.
  assert (K : forall body, Z.of_nat (length body) = be_val h ->
    h0 :: h ++ body = sasl_msg (be_val [h0]) body).
  { intros body Hb. unfold sasl_msg. rewrite Hb, Eh, E0. reflexivity. }
  destruct (be_val h >? 0) eqn:G.
  - pose proof (readAll_exact T R (t_read U) t1 c1 (be_val h) HS HR1) as H2.
    destruct (readAll_t (t_read U) (be_val h) t1) as [[b|e|] t2]; cbn [exact_read] in H2;
      [|tauto|contradiction].
    destruct H2 as (c2 & -> & HR2 & Hl2). unfold ret. exists c2.
    rewrite <- (K b) by lia. cbn [app]. rewrite <- app_assoc. auto.
  - unfold ret. exists c1. rewrite <- (K []) by (cbn [length]; lia).
    rewrite app_nil_r. auto.
Qed.

Lemma recv_msg t status body c : R t (sasl_msg status body ++ c) -> 0 <= status < 256 ->
  Z.of_nat (length body) < 2 ^ 32 ->
  exists t', recv_sasl_msg U t = (Ok (status, body), t') /\ R t' c.
Proof.
  intros HR H0 H1. unfold sasl_msg in HR. rewrite <- !app_assoc in HR.
  rewrite app_assoc in HR.
  assert (L5 : length (be_bytes 1 status ++ be_bytes 4 (Z.of_nat (length body))) = 5%nat)
    by (rewrite app_length, !be_bytes_length; reflexivity).
  unfold recv_sasl_msg, bind.
  destruct (readAll_enough T R (t_read U) t _ 5 HS HR) as (t1 & -> & HR1).
  { rewrite app_length, L5. lia. }
  change (Z.to_nat 5) with 5%nat in *.
  rewrite firstn_exact by exact L5. rewrite skipn_exact in HR1 by exact L5.
  unfold unpack_unsigned.
  rewrite firstn_exact by (apply be_bytes_length).
  rewrite skipn_exact by (apply be_bytes_length).
  rewrite !be_val_be_bytes. change (256 ^ Z.of_nat 1) with 256.
  change (256 ^ Z.of_nat 4) with (2 ^ 32). rewrite !Z.mod_small by lia.
  destruct (Z.of_nat (length body) >? 0) eqn:G.
  - destruct (readAll_enough T R (t_read U) t1 _ (Z.of_nat (length body)) HS HR1)
      as (t2 & -> & HR2).
    { rewrite app_length. lia. }
    rewrite Nat2Z.id, firstn_exact by reflexivity.
    rewrite Nat2Z.id, skipn_exact in HR2 by reflexivity.
    exists t2. split; [reflexivity|exact HR2].
  - destruct body; [|cbn [length] in G; lia]. exists t1. split; [reflexivity|exact HR1].
Qed.

Context {G : Type}.
Variable process : option (list byte) -> SM G (option (list byte)).
Variable complete : G -> bool.
(** Any other status is refused. *)
Theorem sasl_bad_status f t g st b c : R t (sasl_msg st b ++ c) -> 0 <= st < 256 ->
  Z.of_nat (length b) < 2 ^ 32 -> st <> SASL_OK -> st <> SASL_COMPLETE ->
  fst (sasl_loop U process complete (S f) (t, g)) = Raise (ETransport TT_NOT_OPEN).
Proof.
  intros HR H0 H1 N1 N2. cbn [sasl_loop]. unfold bind at 1. unfold on_fst at 1. cbn [fst snd].
  destruct (recv_msg t st b c HR H0 H1) as (t' & -> & _).
  destruct (st =? SASL_OK) eqn:E1; [lia|]. destruct (st =? SASL_COMPLETE) eqn:E2; [lia|].
  reflexivity.
Qed.

Hypothesis RW : forall b t c, R t c -> R (snd (t_write U b t)) c.
Hypothesis RF : forall t c, R t c -> R (snd (t_flush U t)) c.

Lemma send_rel st b t c : R t c -> R (snd (send_sasl_msg U st b t)) c.
Proof.
  intros HR. unfold send_sasl_msg, bind, pack_unsigned.
  destruct (_ && _); [|exact HR]. cbv [ret]. destruct (_ && _); [|exact HR]. cbv [ret].
  match goal with |- context [t_write U ?x t] => pose proof (RW x t c HR) as H;
    destruct (t_write U x t) as [[u|e|] t1] end; cbn [snd] in *; auto.
Qed.

(** The negotiation succeeds only if the server's messages were challenges
    with status OK and then one with status COMPLETE, and the SASL library
    agrees that it is complete. *)
Theorem sasl_loop_sound fuel : forall t g c, R t c ->
  forall t' g', sasl_loop U process complete fuel (t, g) = (Ok tt, (t', g')) ->
  complete g' = true /\ exists challenges final c',
    c = concat (map (sasl_msg SASL_OK) challenges) ++ sasl_msg SASL_COMPLETE final ++ c'
    /\ R t' c'.
Proof.
  induction fuel as [|f IH]; intros t g c HR t' g'; cbn [sasl_loop]; [discriminate|].
  unfold bind at 1. unfold on_fst at 1. cbn [fst snd].
  pose proof (recv_ok t c HR) as H. destruct (recv_sasl_msg U t) as [[[st b]|e|] t1];
    [|discriminate|discriminate].
  destruct H as (c1 & -> & HR1 & Hst).
  destruct (st =? SASL_OK) eqn:E1.
  - unfold bind at 1. unfold on_snd at 1. cbn [fst snd].
    destruct (process (Some b) g) as [[r|e|] g1]; [|discriminate|discriminate].
    unfold bind at 1. unfold on_fst at 1. cbn [fst snd].
    pose proof (send_rel SASL_OK (or_empty r) t1 c1 HR1) as HR2.
    destruct (send_sasl_msg U SASL_OK (or_empty r) t1) as [[u|e|] t2];
      [|discriminate|discriminate]. cbn [snd] in HR2.
    intros H. destruct (IH t2 g1 c1 HR2 t' g' H) as (Hc & chs & fin & c' & -> & HR').
    split; [exact Hc|]. exists (b :: chs), fin, c'. split; [|exact HR'].
    assert (st = SASL_OK) by lia. subst st. cbn [map concat]. rewrite <- app_assoc.
    reflexivity.
  - destruct (st =? SASL_COMPLETE) eqn:E2; [|discriminate].
    assert (st = SASL_COMPLETE) by lia. subst st.
    unfold bind at 1.
    destruct (negb (Z.of_nat (length b) =? 0)).
    + unfold bind at 1. unfold on_snd at 1. cbn [fst snd].
      destruct (process (Some b) g) as [[r|e|] g1]; [|discriminate|discriminate].
      unfold ret. cbn [snd]. destruct (complete g1) eqn:C; [|discriminate].
      intros [= <- <-]. split; [exact C|]. exists [], b, c1. auto.
    + unfold ret. cbn [snd]. destruct (complete g) eqn:C; [|discriminate].
      intros [= <- <-]. split; [exact C|]. exists [], b, c1. auto.
Qed.

(** It always ends when the stream does: each round takes at least five
    bytes. *)
Hypothesis PD : forall x g, fst (process x g) <> Diverge.
Hypothesis WD : forall b t, fst (t_write U b t) <> Diverge.
Hypothesis FD : forall t, fst (t_flush U t) <> Diverge.

Lemma send_nodiv st b t : fst (send_sasl_msg U st b t) <> Diverge.
Proof.
  unfold send_sasl_msg, bind, pack_unsigned.
  destruct (_ && _); [|discriminate]. cbv [ret]. destruct (_ && _); [|discriminate]. cbv [ret].
  match goal with |- context [t_write U ?x t] => pose proof (WD x t) as H;
    destruct (t_write U x t) as [[u|e|] t1] end; cbn [fst] in *;
    [apply FD|discriminate|congruence].
Qed.

Lemma sasl_loop_term fuel : forall t g c, R t c -> (length c < fuel)%nat ->
  fst (sasl_loop U process complete fuel (t, g)) <> Diverge.
Proof.
  induction fuel as [|f IH]; intros t g c HR HF; [lia|]. cbn [sasl_loop].
  unfold bind at 1. unfold on_fst at 1. cbn [fst snd].
  pose proof (recv_ok t c HR) as H. destruct (recv_sasl_msg U t) as [[[st b]|e|] t1];
    [|discriminate|contradiction].
  destruct H as (c1 & -> & HR1 & Hst).
  destruct (st =? SASL_OK) eqn:E1.
  - unfold bind at 1. unfold on_snd at 1. cbn [fst snd].
    pose proof (PD (Some b) g) as H.
    destruct (process (Some b) g) as [[r|e|] g1]; [|discriminate|cbn in H; congruence].
    unfold bind at 1. unfold on_fst at 1. cbn [fst snd].
    pose proof (send_rel SASL_OK (or_empty r) t1 c1 HR1) as HR2.
    pose proof (send_nodiv SASL_OK (or_empty r) t1) as H2.
    destruct (send_sasl_msg U SASL_OK (or_empty r) t1) as [[u|e|] t2];
      [|discriminate|cbn in H2; congruence]. cbn [snd] in HR2.
    apply (IH t2 g1 c1 HR2). unfold sasl_msg in HF. rewrite !app_length, !be_bytes_length in HF.
    lia.
  - destruct (st =? SASL_COMPLETE); [|discriminate].
    unfold bind at 1. destruct (negb _).
    + unfold bind at 1. unfold on_snd at 1. cbn [fst snd]. pose proof (PD (Some b) g) as H.
      destruct (process (Some b) g) as [[r|e|] g1]; [|discriminate|cbn in H; congruence].
      unfold ret. cbn [snd]. destruct (complete g1); discriminate.
    + unfold ret. cbn [snd]. destruct (complete g); discriminate.
Qed.

End Negotiate.

(** ** A negotiation that goes well, over a connection *)

Lemma readAll_log f sz have buff (t : conn) :
  let t' := snd (readAll_loop f (t_read conn_transport) sz have buff t) in
  cn_log t' = cn_log t /\ cn_wfail t' = cn_wfail t /\ cn_ffail t' = cn_ffail t.
Proof.
  cbn zeta. revert have buff t.
  induction f as [|f IH]; intros have buff t; cbn [readAll_loop]; [auto|].
  destruct (have <? sz); [|auto]. unfold bind. cbn [t_read conn_transport].
  destruct (source_read (sz - have) (cn_src t)) as [[x|e|] s']; cbn [snd]; auto.
  destruct (_ =? 0); [auto|]. exact (IH (have + Z.of_nat (length x)) (buff ++ x)
    (mkconn s' (cn_log t) (cn_wfail t) (cn_ffail t))).
Qed.

Lemma recv_log (t : conn) :
  let t' := snd (recv_sasl_msg conn_transport t) in
  cn_log t' = cn_log t /\ cn_wfail t' = cn_wfail t /\ cn_ffail t' = cn_ffail t.
Proof.
  cbn zeta. unfold recv_sasl_msg, bind, readAll_t.
  pose proof (readAll_log (S (Z.to_nat 5)) 5 0 [] t) as H1. cbn zeta in H1.
  destruct (readAll_loop _ _ 5 _ _ t) as [[h|e|] t1]; cbn [snd] in *; auto.
  destruct (_ >? 0); [|exact H1].
  pose proof (readAll_log (S (Z.to_nat (unpack_unsigned (skipn 1 h))))
    (unpack_unsigned (skipn 1 h)) 0 [] t1) as H2. cbn zeta in H2.
  destruct (readAll_loop _ _ (unpack_unsigned _) _ _ t1) as [[b|e|] t2]; cbn [snd] in *;
    destruct H1 as (A & B & C), H2 as (D & E & F); unfold ret; cbn [snd];
    repeat split; congruence.
Qed.

Section Dialogue.
Context {G : Type}.
Variable process : option (list byte) -> SM G (option (list byte)).
Variable complete : G -> bool.

(** The library answers each challenge in turn. *)
Inductive answers : G -> list (list byte) -> list (option (list byte)) -> G -> Prop :=
| answers_nil : forall g, answers g [] [] g
| answers_cons : forall g ch r g1 chs rs g2,
    process (Some ch) g = (Ok r, g1) -> answers g1 chs rs g2 ->
    answers g (ch :: chs) (r :: rs) g2.

Definition short (b : list byte) : Prop := Z.of_nat (length b) < 2 ^ 32.

Lemma conn_send st b (c : conn) : 0 <= st < 256 -> short b ->
  cn_wfail c = [] -> cn_ffail c = [] ->
  send_sasl_msg conn_transport st b c
  = (Ok tt, mkconn (cn_src c) (cn_log c ++ [sasl_msg st b]) [] []).
Proof.
  intros H0 H1 W F. unfold send_sasl_msg, bind, pack_unsigned.
  change (2 ^ (8 * Z.of_nat 1)) with 256. change (2 ^ (8 * Z.of_nat 4)) with (2 ^ 32).
  unfold short in H1.
  destruct ((0 <=? st) && (st <? 256)) eqn:E; [|lia]. cbv [ret].
  destruct ((0 <=? Z.of_nat (length b)) && (Z.of_nat (length b) <? 2 ^ 32)) eqn:E2; [|lia].
  cbv [ret]. cbn [t_write t_flush conn_transport]. rewrite W. cbn [fail_next tl].
  cbn [cn_src cn_log cn_wfail cn_ffail]. rewrite F. cbn [fail_next tl].
  unfold sasl_msg. rewrite <- app_assoc. reflexivity.
Qed.

Lemma sasl_loop_complete chs : forall g rs g1 fin g2 d plan eof log c',
  answers g chs rs g1 ->
  (if negb (Z.of_nat (length fin) =? 0) then exists r, process (Some fin) g1 = (Ok r, g2)
   else g2 = g1) ->
  complete g2 = true -> Forall short chs -> short fin -> Forall (fun r => short (or_empty r)) rs ->
  d = concat (map (sasl_msg SASL_OK) chs) ++ sasl_msg SASL_COMPLETE fin ++ c' ->
  forall fuel, (length chs < fuel)%nat -> exists s,
  sasl_loop conn_transport process complete fuel (mkconn (mksource d plan eof) log [] [], g)
  = (Ok tt, (mkconn s (log ++ map (fun r => sasl_msg SASL_OK (or_empty r)) rs) [] [], g2))
  /\ src_data s = c'.
Proof.
  induction chs as [|ch chs IH]; intros g rs g1 fin g2 d plan eof log c' HA HF HC S1 S2 S3 ->
    fuel Hfuel; (destruct fuel as [|f]; [cbn [length] in *; lia|]); cbn [sasl_loop];
    unfold bind at 1; unfold on_fst at 1; cbn [fst snd map concat app].
  - inversion HA; subst.
    destruct (recv_msg conn_transport conn_rel conn_stream
      (mkconn (mksource (sasl_msg SASL_COMPLETE fin ++ c') plan eof) log [] [])
      SASL_COMPLETE fin c' eq_refl) as (t' & E & HR'); [unfold SASL_COMPLETE; lia|exact S2|].
    cbn [map concat app] in *. 
    pose proof (recv_log (mkconn (mksource (sasl_msg SASL_COMPLETE fin ++ c') plan eof) log [] [])) as K.
    rewrite E in *. cbn [snd] in K. destruct t' as [s' l' w' f']. cbn in K.
    destruct K as (-> & -> & ->). rewrite app_nil_r.
    change (SASL_COMPLETE =? SASL_OK) with false. change (SASL_COMPLETE =? SASL_COMPLETE) with true.
    cbv iota. exists s'. split; [|exact HR'].
    unfold bind at 1. destruct (negb _).
    + destruct HF as [r HF]. unfold bind, on_snd. cbn [fst snd]. rewrite HF.
      unfold ret. cbn [snd]. rewrite HC. reflexivity.
    + subst g2. unfold ret. cbn [snd]. rewrite HC. reflexivity.
  - inversion HA as [|? ? r g3 ? rs' ? HP HA']; subst.
    inversion S1 as [|? ? S1a S1b]; subst. inversion S3 as [|? ? S3a S3b]; subst.
    rewrite <- app_assoc.
    set (rest := concat (map (sasl_msg SASL_OK) chs) ++ sasl_msg SASL_COMPLETE fin ++ c').
    destruct (recv_msg conn_transport conn_rel conn_stream
      (mkconn (mksource (sasl_msg SASL_OK ch ++ rest) plan eof) log [] [])
      SASL_OK ch rest eq_refl) as (t' & E & HR'); [unfold SASL_OK; lia|exact S1a|].
    pose proof (recv_log (mkconn (mksource (sasl_msg SASL_OK ch ++ rest) plan eof) log [] [])) as K.
    rewrite E in *. cbn [snd] in K. destruct t' as [s' l' w' f']. cbn in K.
    destruct K as (-> & -> & ->).
    change (SASL_OK =? SASL_OK) with true. cbv iota.
    unfold bind at 1. unfold on_snd at 1. cbn [fst snd]. rewrite HP.
    unfold bind at 1. unfold on_fst at 1. cbn [fst snd].
    rewrite conn_send by (auto; unfold SASL_OK; lia).
    cbn [cn_src cn_log]. destruct s' as [d' p' e']. unfold conn_rel in HR'.
    cbn in HR'. subst d'.
    destruct (IH g3 rs' g1 fin g2 rest p' e' (log ++ [sasl_msg SASL_OK (or_empty r)]) c'
      HA' HF HC S1b S2 S3b eq_refl f) as (s & Hs & Hd); [cbn [length] in *; lia|].
    exists s. split; [|exact Hd]. rewrite Hs. cbn [map]. rewrite <- app_assoc. reflexivity.
Qed.
End Dialogue.

Lemma sasl_open_sound : forall T (U : transport T) R G
    (process : option (list byte) -> SM G (option (list byte))) complete,
  stream R (t_read U) ->
  (forall b t c, R t c -> R (snd (t_write U b t)) c) ->
  (forall t c, R t c -> R (snd (t_flush U t)) c) ->
  forall fuel mech t g c t' g', R t c ->
  sasl_open U process complete fuel mech (t, g) = (Ok tt, (t', g')) ->
  complete g' = true /\ exists challenges final c',
    c = concat (map (sasl_msg 2) challenges) ++ sasl_msg 5 final ++ c' /\ R t' c'.
Proof.
  intros T U R G process complete HS RW RF fuel mech t g c t' g' HR.
  unfold sasl_open. unfold bind at 1. unfold on_fst at 1. cbn [fst snd].
  pose proof (send_rel U R RW RF SASL_START mech t c HR) as HR1.
  destruct (send_sasl_msg U SASL_START mech t) as [[u|e|] t1]; [|discriminate|discriminate].
  unfold bind at 1. unfold on_snd at 1. cbn [fst snd] in *.
  destruct (process None g) as [[r|e|] g1]; [|discriminate|discriminate].
  unfold bind at 1. unfold on_fst at 1. cbn [fst snd].
  pose proof (send_rel U R RW RF SASL_OK (or_empty r) t1 c HR1) as HR2.
  destruct (send_sasl_msg U SASL_OK (or_empty r) t1) as [[u2|e|] t2];
    [|discriminate|discriminate]. cbn [snd] in HR2.
  apply (sasl_loop_sound U R HS process complete RW RF fuel t2 g1 c HR2).
Qed.

Lemma sasl_open_complete : forall G
    (process : option (list byte) -> SM G (option (list byte))) complete
    mech r0 g g0 chs rs g1 fin g2 plan eof c',
  process None g = (Ok r0, g0) ->
  answers process g0 chs rs g1 ->
  (if negb (Z.of_nat (length fin) =? 0) then exists r, process (Some fin) g1 = (Ok r, g2)
   else g2 = g1) ->
  complete g2 = true ->
  short mech -> short (or_empty r0) -> Forall short chs -> short fin ->
  Forall (fun r => short (or_empty r)) rs ->
  let d := concat (map (sasl_msg 2) chs) ++ sasl_msg 5 fin ++ c' in
  exists s, sasl_open conn_transport process complete (S (length chs)) mech
              (mkconn (mksource d plan eof) [] [] [], g)
  = (Ok tt, (mkconn s (sasl_msg 1 mech :: sasl_msg 2 (or_empty r0)
                       :: map (fun r => sasl_msg 2 (or_empty r)) rs) [] [], g2))
  /\ src_data s = c'.
Proof.
  intros G process complete mech r0 g g0 chs rs g1 fin g2 plan eof c' HP HA HF HC S0 S0'
    S1 S2 S3 d.
  unfold sasl_open. unfold bind at 1. unfold on_fst at 1. cbn [fst snd].
  rewrite conn_send by (auto; unfold SASL_START; lia). cbn [cn_src cn_log app].
  unfold bind at 1. unfold on_snd at 1. cbn [fst snd]. rewrite HP.
  unfold bind at 1. unfold on_fst at 1. cbn [fst snd].
  rewrite conn_send by (auto; unfold SASL_OK; lia). cbn [cn_src cn_log app].
  destruct (sasl_loop_complete process complete chs g0 rs g1 fin g2 d plan eof
    [sasl_msg 1 mech; sasl_msg 2 (or_empty r0)] c' HA HF HC S1 S2 S3 eq_refl
    (S (length chs)) ltac:(lia)) as (s & E & Hd).
  exists s. split; [exact E|exact Hd].
Qed.

Lemma sasl_round_trip : forall wrapf unwrap payloads sizes plan raises,
  (forall p, In p payloads -> exists e, wrapf p = Ok e /\ unwrap e = Ok p
     /\ Z.of_nat (length e) < 2 ^ 31) ->
  Forall (fun p => p <> []) payloads -> Forall (fun z => 0 < z) sizes ->
  let V := mktransport (wrap conn) (sasl_read conn_transport unwrap) w_write
             (sasl_flush conn_transport wrapf) in
  let sent := cn_log (w_trans (snd (run_ops V
                (flat_map (fun p => [OWrite p; OFlush]) payloads)
                (mkwrap (mkconn (mksource [] [] false) [] [] []) [] [])))) in
  delivers (concat payloads) sizes
    (fst (run_reads (t_read V) sizes
       (mkwrap (mkconn (mksource (concat sent) plan raises) [] [] []) [] []))).
Proof.
  intros wrapf unwrap payloads sizes plan raises HW HN HZ V sent.
  assert (K : forall log, exists eps, Forall (sasl_frame_ok unwrap) eps /\
    map snd eps = payloads /\
    cn_log (w_trans (snd (run_ops V (flat_map (fun p => [OWrite p; OFlush]) payloads)
                (mkwrap (mkconn (mksource [] [] false) log [] []) [] []))))
    = log ++ map (fun ep => frame (fst ep)) eps).
  { clear sent HZ. induction payloads as [|p ps IH]; intros log.
    - exists []. cbn [flat_map run_ops snd w_trans cn_log map]. rewrite app_nil_r. auto.
    - inversion HN as [|? ? Hp HN']; subst.
      destruct (HW p (or_introl eq_refl)) as (e & E1 & E2 & E3).
      specialize (IH (fun q Hq => HW q (or_intror Hq)) HN' (log ++ [frame e])).
      destruct IH as (eps & F & M & L).
      exists ((e, p) :: eps). split; [constructor; [repeat split; auto|exact F]|].
      split; [cbn [map snd]; rewrite M; reflexivity|].
      cbn [flat_map app run_ops].
      assert (Fl : snd (t_flush V (snd (t_write V p
        (mkwrap (mkconn (mksource [] [] false) log [] []) [] []))))
        = mkwrap (mkconn (mksource [] [] false) (log ++ [frame e]) [] []) [] []).
      { cbn [V t_write t_flush]. unfold w_write. cbn [snd w_trans w_rbuf w_wbuf app].
        unfold sasl_flush, bind, wbuf_getvalue, lift, on_trans, set_wbuf.
        cbn [w_trans w_rbuf w_wbuf]. rewrite E1. cbn [w_trans w_rbuf w_wbuf].
        rewrite pack_signed_ok
          by (unfold in_signed; change (2 ^ (8 * Z.of_nat 4 - 1)) with (2 ^ 31); lia).
        reflexivity. }
      rewrite Fl. cbn [map fst]. rewrite L, <- app_assoc. reflexivity. }
  destruct (K []) as (eps & F & M & L). fold sent in L. rewrite L. cbn [app].
  apply (run_reads_delivers _ (sasl_rel conn_rel unwrap) _
    (sasl_stream conn_transport conn_rel conn_stream unwrap)); [|exact HZ].
  exists eps, []. cbn [w_trans w_rbuf app]. rewrite app_nil_r, M.
  repeat split; auto. apply incomplete_nil.
Qed.
